From Coq Require Import List Arith ZArith Lia Bool Ascii.
From Verif Require Import Base RingOps RingModel RingSpec RingProofs LineModel LineSpec.
Import ListNotations.

Lemma reachable_rep {A} W cap (r : ring A) q :
  reachable W cap r -> holds r q -> rep r q /\ length (buf r) = cap.
Proof.
  intros (Hc & dbg & init & ops & r0 & xs & E & Er) [Hu (r' & Ep & _)].
  destruct (reach_rep W dbg cap init ops r0 xs r Hc E Er) as (q' & HR & L).
  split; [|exact L]. pose proof (rep_used _ _ HR) as U.
  destruct (pop_n_rep r q' (length q) HR) as (r2 & E2 & _ & _).
  rewrite Ep in E2. inversion E2 as [[H1 H2]].
  replace (length q' <? length q) with false in H1 by (symmetry; apply Nat.ltb_ge; lia).
  replace (length q) with (length q') in H1 by lia. rewrite firstn_all in H1.
  assert (q = q') as ->; [|exact HR].
  clear - H1. revert q' H1; induction q as [|x q IH]; intros [|y q'] H; simpl in H; try discriminate; auto.
  inversion H. f_equal. now apply IH.
Qed.

Lemma rep_reachable {A} W (r : ring A) q ops xs r' :
  reachable W (length (buf r)) r -> rep r q -> ring_run W r ops = Ok (xs, r') -> reachable W (length (buf r)) r'.
Proof.
  intros (Hc & dbg & init & ops0 & r0 & xs0 & E & Er) HR Erun. split; [exact Hc|].
  exists dbg, init, (ops0 ++ ops), r0, (xs0 ++ xs). split; [exact E|].
  clear - Er Erun. revert r0 xs0 Er. induction ops0 as [|op ops0 IH]; intros r0 xs0 Er; simpl in *.
  - inversion Er; subst. exact Erun.
  - destruct (ring_step W r0 op) as [[x r1]| | | |]; simpl in *; try discriminate.
    destruct (ring_run W r1 ops0) as [[ys r2]| | | |] eqn:E2; simpl in *; try discriminate.
    inversion Er; subst. rewrite (IH r1 ys E2). reflexivity.
Qed.

Section S.
Variable W : Z.
Variable delims : list ascii.
Implicit Types (r : ring ascii) (q : list ascii).

Lemma is_delim_eq c : is_delim delims c = existsb (Ascii.eqb c) delims.
Proof. reflexivity. Qed.

Lemma lonl_loop_rep : forall q2 r q1 len,
  rep r (q1 ++ q2) ->
  lonl_loop delims r (length q1) (length q2) len =
  Ok (match first_line delims q2 with None => 0 | Some (l, _) => len + length l + 1 end).
Proof.
  induction q2 as [|c q2 IH]; intros r q1 len HR; simpl; [reflexivity|].
  rewrite (peek_rep r _ (length q1) HR), nth_error_app2, Nat.sub_diag by lia. simpl.
  rewrite is_delim_eq. destruct (existsb (Ascii.eqb c) delims) eqn:Ed.
  - simpl. f_equal; lia.
  - replace (S (length q1)) with (length (q1 ++ [c])) by (rewrite app_length; simpl; lia).
    rewrite (IH r (q1 ++ [c])) by (rewrite <- app_assoc; exact HR).
    destruct (first_line delims q2) as [[l rest]|]; [|reflexivity]. simpl. f_equal; lia.
Qed.

Lemma lonl_rep r q : rep r q ->
  length_of_next_line delims r =
  Ok (match first_line delims q with None => 0 | Some (l, _) => length l + 1 end).
Proof.
  intros HR. unfold length_of_next_line. rewrite (rep_used _ _ HR).
  exact (lonl_loop_rep q r [] 0 HR).
Qed.

Lemma first_line_app q l rest :
  first_line delims q = Some (l, rest) ->
  exists d, q = l ++ d :: rest /\ existsb (Ascii.eqb d) delims = true /\
            Forall (fun c => existsb (Ascii.eqb c) delims = false) l.
Proof.
  revert l rest; induction q as [|c q IH]; intros l rest H; simpl in H; [discriminate|].
  destruct (existsb (Ascii.eqb c) delims) eqn:Ed.
  - inversion H; subst. exists c. auto.
  - destruct (first_line delims q) as [[l' rest']|]; [|discriminate]. inversion H; subst.
    destruct (IH l' rest eq_refl) as (d & E & Hd & Hl). exists d. subst q. split; [reflexivity|]. auto.
Qed.

Lemma line_loop_rep : forall l r out i q,
  rep r (l ++ q) -> i + length l <= length out ->
  exists r', line_loop r out i (length l) = Ok (firstn i out ++ l ++ skipn (i + length l) out, r') /\
             rep r' q /\ buf r' = buf r.
Proof.
  induction l as [|c l IH]; intros r out i q HR Hi; simpl in *.
  - exists r. rewrite Nat.add_0_r, firstn_skipn. auto.
  - destruct (pop_rep_cons r c (l ++ q) HR) as (r1 & E1 & HR1 & B1 & _). rewrite E1; simpl.
    rewrite wr_ok by lia. simpl.
    destruct (IH r1 (upd out i c) (S i) q HR1) as (r2 & E2 & HR2 & B2); [rewrite upd_length; lia|].
    rewrite E2. exists r2. split; [|split; [exact HR2|congruence]].
    f_equal. f_equal. rewrite upd_split by lia.
    replace (S i) with (length (firstn i out) + 1) by (rewrite firstn_length; lia).
    rewrite firstn_app_2. simpl.
    rewrite <- app_assoc. simpl. f_equal. f_equal. f_equal.
    rewrite skipn_app.
    rewrite skipn_all2 by (rewrite !firstn_length; lia). simpl.
    replace (length (firstn i out) + 1 + length l - length (firstn i out)) with (1 + length l) by (rewrite firstn_length; lia).
    simpl. rewrite skipn_skipn'. f_equal. rewrite firstn_length. lia.
Qed.

Lemma drop_loop_rep : forall l r q,
  rep r (l ++ q) ->
  exists r', drop_loop r (length l) = Ok r' /\ rep r' q /\ buf r' = buf r.
Proof.
  induction l as [|c l IH]; intros r q HR; simpl in *.
  - exists r; auto.
  - destruct (pop_rep_cons r c (l ++ q) HR) as (r1 & E1 & HR1 & B1 & _). rewrite E1; simpl.
    destruct (IH r1 q HR1) as (r2 & E2 & HR2 & B2). exists r2. rewrite E2. split; [reflexivity|]. split; [exact HR2|congruence].
Qed.

Lemma get_next_line_rep r q out max :
  rep r q -> max <= length out ->
  exists n out' r', get_next_line delims r out max None = Ok (n, out', r') /\ buf r' = buf r /\
    match first_line delims q with
    | Some (line, rest) =>
        if length line + 1 <=? max
        then n = length line /\ out' = line ++ NUL :: skipn (length line + 1) out /\ rep r' rest
        else n = 0 /\ out' = out /\ r' = r
    | None => n = 0 /\ out' = out /\ r' = r
    end.
Proof.
  intros HR Hm. unfold get_next_line, discovered. rewrite (lonl_rep r q HR). simpl.
  destruct (first_line delims q) as [[line rest]|] eqn:Ef.
  2:{ simpl. exists 0, out, r. auto. }
  destruct (first_line_app q line rest Ef) as (d & Eq & _ & _).
  replace (length line + 1 =? 0) with false by (symmetry; apply Nat.eqb_neq; lia). simpl.
  destruct (Nat.ltb_spec max (length line + 1)) as [Hlt|Hge].
  - destruct (Nat.leb_spec (length line + 1) max); [lia|]. exists 0, out, r. auto.
  - destruct (Nat.leb_spec (length line + 1) max); [|lia].
    rewrite Nat.add_sub. subst q.
    destruct (line_loop_rep line r out 0 (d :: rest) HR ltac:(lia)) as (r1 & E1 & HR1 & B1).
    rewrite E1; simpl. destruct (pop_rep_cons r1 d rest HR1) as (r2 & E2 & HR2 & B2 & _).
    rewrite E2; simpl. rewrite wr_ok by (rewrite app_length, skipn_length; lia). simpl.
    do 3 eexists. split; [reflexivity|]. split; [congruence|]. split; [reflexivity|]. split; [|exact HR2].
    rewrite upd_split by (rewrite app_length, skipn_length; lia).
    rewrite firstn_app, firstn_all, Nat.sub_diag. simpl. rewrite app_nil_r. f_equal. f_equal.
    change (match line ++ skipn (length line) out with [] => [] | _ :: l => skipn (length line) l end)
      with (skipn (S (length line)) (line ++ skipn (length line) out)).
    rewrite skipn_app, skipn_all2 by lia.
    replace (S (length line) - length line) with 1 by lia. rewrite skipn_skipn'. reflexivity.
Qed.

Lemma drop_next_line_rep r q :
  rep r q ->
  exists b r', drop_next_line delims r None = Ok (b, r') /\ buf r' = buf r /\
    match first_line delims q with
    | Some (_, rest) => b = true /\ rep r' rest
    | None => b = false /\ r' = r
    end.
Proof.
  intros HR. unfold drop_next_line, discovered. rewrite (lonl_rep r q HR). simpl.
  destruct (first_line delims q) as [[line rest]|] eqn:Ef.
  2:{ simpl. exists false, r. auto. }
  destruct (first_line_app q line rest Ef) as (d & Eq & _ & _).
  replace (length line + 1 =? 0) with false by (symmetry; apply Nat.eqb_neq; lia).
  rewrite Nat.add_sub. subst q.
  destruct (drop_loop_rep line r (d :: rest) HR) as (r1 & E1 & HR1 & B1). rewrite E1; simpl.
  destruct (pop_rep_cons r1 d rest HR1) as (r2 & E2 & HR2 & B2 & _). rewrite E2; simpl.
  exists true, r2. split; [reflexivity|]. split; [congruence|]. auto.
Qed.

Lemma has_line_rep r q : rep r q ->
  has_line delims r = Ok (match first_line delims q with None => false | Some _ => true end).
Proof.
  intros HR. unfold has_line. rewrite (lonl_rep r q HR). simpl.
  destruct (first_line delims q) as [[l rest]|]; [|reflexivity]. f_equal. apply Nat.ltb_lt. lia.
Qed.

(** Views. *)
Lemma view_read_ok : forall len store off,
  off + len <= length store -> view_read store off len = Ok (firstn len (skipn off store)).
Proof.
  induction len as [|k IH]; intros store off H; simpl; [reflexivity|].
  destruct (nth_error store off) as [c|] eqn:E; [|apply nth_error_None in E; lia].
  rewrite (rd_ok _ _ c E). simpl. rewrite IH by lia. simpl.
  assert (skipn off store = c :: skipn (S off) store) as ->.
  { apply nth_error_split in E. destruct E as (l1 & l2 & -> & <-).
    rewrite skipn_app, skipn_all, Nat.sub_diag. simpl.
    change (match l1 ++ c :: l2 with [] => [] | _ :: l => skipn (length l1) l end) with (skipn (S (length l1)) (l1 ++ c :: l2)).
    rewrite skipn_app, skipn_all2 by lia. replace (S (length l1) - length l1) with 1 by lia. reflexivity. }
  reflexivity.
Qed.

Lemma view_read_ub : forall len store off,
  length store < off + len -> off <= length store -> view_read store off len = UB.
Proof.
  induction len as [|k IH]; intros store off H Ho; simpl; [lia|].
  destruct (nth_error store off) as [c|] eqn:E.
  - assert (off < length store) by (apply nth_error_Some; congruence).
    rewrite (rd_ok _ _ c E). simpl. rewrite IH by lia. reflexivity.
  - apply nth_error_None in E. rewrite rd_ub by lia. reflexivity.
Qed.

Lemma view_rep r q : rep r q ->
  match first_line delims q with
  | None => get_next_line_view delims r None = Ok None
  | Some (line, rest) =>
      get_next_line_view delims r None = Ok (Some (rtail r, length line)) /\
      view_read (buf r) (rtail r) (length line) =
        (if rtail r + length line <=? length (buf r) then Ok line else UB)
  end.
Proof.
  intros HR. unfold get_next_line_view, discovered. rewrite (lonl_rep r q HR). simpl.
  destruct (first_line delims q) as [[line rest]|] eqn:Ef; [|reflexivity].
  destruct (first_line_app q line rest Ef) as (d & Eq & _ & _).
  replace (length line + 1 =? 0) with false by (symmetry; apply Nat.eqb_neq; lia).
  assert (1 <= length q) by (subst q; rewrite app_length; simpl; lia).
  unfold peek_ptr. rewrite (rep_used _ _ HR). destruct (Nat.leb_spec (length q) 0); [lia|].
  rewrite Nat.add_0_r, Nat.mod_small by apply (rep_tail _ _ HR). rewrite Nat.add_sub.
  split; [reflexivity|]. pose proof (rep_tail _ _ HR).
  destruct (Nat.leb_spec (rtail r + length line) (length (buf r))).
  - rewrite view_read_ok by lia. f_equal. apply nth_error_ext. intros i.
    rewrite nth_error_firstn, nth_error_skipn. destruct (Nat.ltb_spec i (length line)).
    + pose proof (rep_elem _ _ HR i) as He. rewrite Nat.mod_small in He by lia.
      rewrite He by (subst q; rewrite app_length; simpl; lia).
      subst q. rewrite nth_error_app1 by lia. reflexivity.
    + symmetry. apply nth_error_None. lia.
  - apply view_read_ub; lia.
Qed.

(** Framing. *)
Lemma lines_of_first q line rest :
  first_line delims q = Some (line, rest) ->
  lines_of delims q = (line :: fst (lines_of delims rest), snd (lines_of delims rest)).
Proof.
  revert line rest; induction q as [|c q IH]; intros line rest H; simpl in *; [discriminate|].
  destruct (existsb (Ascii.eqb c) delims).
  - inversion H; subst. destruct (lines_of delims rest); reflexivity.
  - destruct (first_line delims q) as [[l r0]|]; [|discriminate]. inversion H; subst.
    rewrite (IH l rest eq_refl). reflexivity.
Qed.

Lemma line_step_rep m r q op :
  rep r q -> length (buf r) <= m ->
  exists x r', line_step W delims m r op = Ok (x, r') /\ length (buf r') = length (buf r) /\
    match op with
    | LFeed s => let room := length (buf r) - length q in
                 x = LAccepted (Nat.min (length s) room) /\ rep r' (q ++ firstn room s)
    | LRead => match first_line delims q with
               | Some (line, rest) => x = LLine line /\ rep r' rest
               | None => x = LNoLine /\ r' = r
               end
    end.
Proof.
  intros HR Hm. destruct op as [s|]; simpl.
  - unfold line_push. destruct (push_n_plain W s r q HR) as (r' & E & HR' & L & _). rewrite E; simpl.
    do 2 eexists. split; [reflexivity|]. split; [exact L|]. auto.
  - rewrite (has_line_rep r q HR). simpl.
    destruct (first_line delims q) as [[line rest]|] eqn:Ef.
    2:{ do 2 eexists; split; [reflexivity|]; auto. }
    destruct (get_next_line_rep r q (repeat NUL m) m HR) as (n & out & r' & E & B & H); [rewrite repeat_length; lia|].
    rewrite E; simpl. rewrite Ef in H.
    assert (length line + 1 <= m).
    { destruct (first_line_app q line rest Ef) as (d & Eq & _ & _).
      pose proof (rep_len _ _ HR). subst q. rewrite app_length in *; simpl in *; lia. }
    destruct (Nat.leb_spec (length line + 1) m); [|lia]. destruct H as (-> & -> & HR').
    do 2 eexists. split; [reflexivity|]. split; [congruence|]. split; [|exact HR'].
    rewrite firstn_app, firstn_all, Nat.sub_diag. simpl. now rewrite app_nil_r.
Qed.

Lemma firstn_min_length {A} n (l : list A) : firstn (Nat.min (length l) n) l = firstn n l.
Proof.
  destruct (le_lt_dec (length l) n).
  - rewrite Nat.min_l, !firstn_all2 by lia. reflexivity.
  - rewrite Nat.min_r by lia. reflexivity.
Qed.

Lemma line_run_rep m ops : forall r q,
  rep r q -> length (buf r) <= m ->
  exists xs r' q', line_run W delims m r ops = Ok (xs, r') /\ rep r' q' /\ length xs = length ops /\
    fst (lines_of delims (q ++ accepted ops xs)) = delivered xs ++ fst (lines_of delims q') /\
    snd (lines_of delims (q ++ accepted ops xs)) = snd (lines_of delims q').
Proof.
  induction ops as [|op ops IH]; intros r q HR Hm; simpl.
  - exists [], r, q. rewrite app_nil_r. auto.
  - destruct (line_step_rep m r q op HR Hm) as (x & r1 & E1 & L1 & H1). rewrite E1; simpl.
    destruct op as [s|].
    + destruct H1 as [-> HR1].
      destruct (IH r1 _ HR1 ltac:(lia)) as (xs & r2 & q2 & E2 & HR2 & Lx & F & S). rewrite E2; simpl.
      do 3 eexists. split; [reflexivity|]. split; [exact HR2|]. split; [simpl; lia|].
      rewrite firstn_min_length, app_assoc. auto.
    + destruct (first_line delims q) as [[line rest]|] eqn:Ef.
      * destruct H1 as [-> HR1].
        destruct (IH r1 _ HR1 ltac:(lia)) as (xs & r2 & q2 & E2 & HR2 & Lx & F & S). rewrite E2; simpl.
        do 3 eexists. split; [reflexivity|]. split; [exact HR2|]. split; [simpl; lia|].
        assert (first_line delims (q ++ accepted ops xs) = Some (line, rest ++ accepted ops xs)) as Ef'.
        { clear - Ef. revert line rest Ef. induction q as [|c q IHq]; intros line rest Ef; simpl in *; [discriminate|].
          destruct (existsb (Ascii.eqb c) delims); [now inversion Ef|].
          destruct (first_line delims q) as [[l r0]|]; [|discriminate]. inversion Ef; subst.
          now rewrite (IHq l rest eq_refl). }
        rewrite (lines_of_first _ _ _ Ef'). simpl. rewrite F, S. auto.
      * destruct H1 as [-> ->].
        destruct (IH r q HR Hm) as (xs & r2 & q2 & E2 & HR2 & Lx & F & S). rewrite E2; simpl.
        do 3 eexists. split; [reflexivity|]. split; [exact HR2|]. split; [simpl; lia|]. auto.
Qed.

End S.

(** Statements for the properties. *)
Lemma framing W delims dbg cap m ops r0 :
  1 <= cap -> cap <= m -> line_new dbg cap = Ok r0 ->
  exists xs r q, line_run W delims m r0 ops = Ok (xs, r) /\ length xs = length ops /\ holds r q /\
    fst (lines_of delims (accepted ops xs)) = delivered xs ++ fst (lines_of delims q) /\
    snd (lines_of delims (accepted ops xs)) = snd (lines_of delims q).
Proof.
  intros Hc Hm E. destruct (ring_new_rep dbg cap NUL Hc) as (r & E' & HR & L & _).
  unfold line_new in E. rewrite E in E'; inversion E'; subst r0.
  destruct (line_run_rep W delims m ops r [] HR ltac:(lia)) as (xs & r' & q & E2 & HR2 & Lx & F & S).
  exists xs, r', q. simpl in *. split; [exact E2|]. split; [exact Lx|]. split; [apply rep_holds; exact HR2|auto].
Qed.

Lemma get_next_line_exact W delims cap r q out max :
  reachable W cap r -> holds r q -> max <= length out ->
  exists n out' r', get_next_line delims r out max None = Ok (n, out', r') /\
    match first_line delims q with
    | Some (line, rest) =>
        if length line + 1 <=? max
        then n = length line /\ out' = line ++ NUL :: skipn (length line + 1) out /\ holds r' rest
        else n = 0 /\ out' = out /\ r' = r
    | None => n = 0 /\ out' = out /\ r' = r
    end.
Proof.
  intros Hr Hh Hm. destruct (reachable_rep W cap r q Hr Hh) as [HR L].
  destruct (get_next_line_rep delims r q out max HR Hm) as (n & out' & r' & E & B & H).
  exists n, out', r'. split; [exact E|]. destruct (first_line delims q) as [[line rest]|]; [|exact H].
  destruct (length line + 1 <=? max); [|exact H]. destruct H as (? & ? & ?). auto using rep_holds.
Qed.

Lemma drop_next_line_exact W delims cap r q :
  reachable W cap r -> holds r q ->
  exists b r', drop_next_line delims r None = Ok (b, r') /\
    has_line delims r = Ok b /\
    match first_line delims q with
    | Some (_, rest) => b = true /\ holds r' rest
    | None => b = false /\ r' = r
    end.
Proof.
  intros Hr Hh. destruct (reachable_rep W cap r q Hr Hh) as [HR L].
  destruct (drop_next_line_rep delims r q HR) as (b & r' & E & B & H).
  exists b, r'. rewrite (has_line_rep delims r q HR). split; [exact E|].
  destruct (first_line delims q) as [[line rest]|]; destruct H as [-> H]; auto using rep_holds.
Qed.

Lemma view_exact W delims cap r q :
  reachable W cap r -> holds r q ->
  match first_line delims q with
  | None => get_next_line_view delims r None = Ok None
  | Some (line, rest) =>
      exists off, get_next_line_view delims r None = Ok (Some (off, length line)) /\
      view_read (buf r) off (length line) = (if off + length line <=? cap then Ok line else UB)
  end.
Proof.
  intros Hr Hh. destruct (reachable_rep W cap r q Hr Hh) as [HR L].
  pose proof (view_rep delims r q HR) as H. destruct (first_line delims q) as [[line rest]|]; [|exact H].
  exists (rtail r). rewrite <- L. exact H.
Qed.

(** Any length passed by the caller: still memory safe. *)
Lemma line_loop_any : forall k r q out i,
  rep r q -> i + k <= length out ->
  exists out' r' q', line_loop r out i k = Ok (out', r') /\ rep r' q' /\ length (buf r') = length (buf r) /\
    length out' = length out /\ forall j, (j < i \/ i + k <= j) -> nth_error out' j = nth_error out j.
Proof.
  induction k as [|k IH]; intros r q out i HR Hi; simpl.
  - exists out, r, q. splits; auto.
  - destruct q as [|c q].
    + rewrite (pop_rep_nil r HR). simpl.
      destruct (IH r [] out (S i) HR ltac:(lia)) as (out' & r' & q' & E & HR' & B & L & H).
      exists out', r', q'. rewrite E. splits; auto. intros j Hj. apply H. lia.
    + destruct (pop_rep_cons r c q HR) as (r1 & E1 & HR1 & B1 & _). rewrite E1; simpl.
      rewrite wr_ok by lia. simpl.
      destruct (IH r1 q (upd out i c) (S i) HR1) as (out' & r' & q' & E & HR' & B & L & H); [rewrite upd_length; lia|].
      exists out', r', q'. rewrite E. rewrite upd_length in L. splits; auto; [congruence|].
      intros j Hj. rewrite H by lia. apply nth_error_upd_neq. lia.
Qed.

Lemma get_next_line_any W delims cap r q out max d :
  reachable W cap r -> holds r q -> max <= length out ->
  exists n out' r' q', get_next_line delims r out max d = Ok (n, out', r') /\ holds r' q' /\
    length out' = length out /\ (n < max \/ n = 0) /\ forall j, max <= j -> nth_error out' j = nth_error out j.
Proof.
  intros Hr Hh Hm. destruct (reachable_rep W cap r q Hr Hh) as [HR L].
  unfold get_next_line, discovered. rewrite (lonl_rep delims r q HR). simpl.
  set (len := match d with Some k => k | None => _ end). clearbody len.
  destruct (Nat.eqb_spec len 0); simpl.
  { exists 0, out, r, q. auto 8. }
  destruct (Nat.ltb_spec max len).
  { exists 0, out, r, q. auto 8. }
  destruct (line_loop_any (len - 1) r q out 0 HR ltac:(lia)) as (out1 & r1 & q1 & E1 & HR1 & B1 & L1 & H1).
  rewrite E1; simpl.
  assert (exists v r2 q2, pop r1 = Ok (v, r2) /\ rep r2 q2) as (v & r2 & q2 & E2 & HR2).
  { destruct q1 as [|c q1].
    - rewrite (pop_rep_nil r1 HR1). eauto.
    - destruct (pop_rep_cons r1 c q1 HR1) as (r2 & E2 & HR2 & _). eauto. }
  rewrite E2; simpl. rewrite wr_ok by lia. simpl.
  do 3 eexists. exists q2. split; [reflexivity|]. split; [apply rep_holds; exact HR2|].
  split; [rewrite upd_length; lia|]. split; [lia|].
  intros j Hj. rewrite nth_error_upd_neq by lia. apply H1. lia.
Qed.
