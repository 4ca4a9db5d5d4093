(** Property C99: the text for a pipeline. *)
From Coq Require Import List Arith ZArith Bool Lia.
From Verif Require Import Base KTimeModel ReprModel TextModel.
Import ListNotations.
Open Scope nat_scope.

(** The items with a separator between them *)
Fixpoint joined (sep : list nat) (items : list (list nat)) : list nat :=
  match items with [] => [] | [x] => x | x :: t => x ++ sep ++ joined sep t end.
Lemma joined_flat sep items : items <> [] -> flat_map (fun x => x ++ sep) items = joined sep items ++ sep.
Proof.
  induction items as [| x t IH]; [congruence |]. intros _. destruct t as [| y t']; [cbn; now rewrite app_nil_r |].
  change (flat_map _ (x :: y :: t')) with ((x ++ sep) ++ flat_map (fun x => x ++ sep) (y :: t')). rewrite IH by discriminate.
  change (joined sep (x :: y :: t')) with (x ++ sep ++ joined sep (y :: t')). now rewrite <- !app_assoc.
Qed.
Lemma flat_map_map' {A B C} (f : A -> B) (g : B -> list C) l : flat_map g (map f l) = flat_map (fun x => g (f x)) l.
Proof. induction l; cbn; congruence. Qed.

(** C99. In a release build the text has the times of all events in their order, but with one separator too many at the end *)
Lemma text : forall first us, to_string false first us = Ok
  (opening ++ joined [44; 32] (map (repr MS) us) ++ (match us with [] => [] | _ => [44; 32] end) ++ [93]).
Proof.
  intros first us. unfold to_string, sassert. destruct (_ <=? _); destruct (_ =? _); cbn [bind]; f_equal; unfold pass; f_equal;
    (destruct us as [| u t]; [reflexivity |]); rewrite app_assoc; f_equal; rewrite <- joined_flat by discriminate; now rewrite flat_map_map'.
Qed.
Theorem C99_text_partial : forall first us, to_string false first us = Ok
  (opening ++ joined [44; 32] (map (repr MS) us) ++ (match us with [] => [] | _ => [44; 32] end) ++ [93]).
Proof. exact text. Qed.
Print Assumptions C99_text_partial.
Example C99_text_case : to_string false [1500; 2500]%Z [1500; 60000000]%Z =
  Ok (opening ++ [50; 115; 44; 32] ++ [49; 48; 48; 48; 109; 44; 32] ++ [93]).
Proof. vm_compute. reflexivity. Qed.
Theorem C99_separator_refuted : exists us, to_string false us us <> Ok (opening ++ joined [44; 32] (map (repr MS) us) ++ [93]).
Proof. exists [5000%Z]. vm_compute. discriminate. Qed.
Print Assumptions C99_separator_refuted.
(** A debug build gives that text exactly when it had at least 30 characters in the first pass and has no more in the second; otherwise
    it stops *)
Lemma shown_digits fuel n acc : 1 <= length acc -> 1 <= length (show_digits fuel n acc).
Proof. revert n acc. induction fuel as [| f IH]; intros n acc A; cbn [show_digits]; [exact A |]. destruct (_ =? 0)%Z; [cbn; lia | apply IH; cbn; lia]. Qed.
Lemma shown n : 1 <= length (show n).
Proof.
  assert (D : forall f m, 1 <= length (show_digits (S f) m [])).
  { intros f m. cbn [show_digits]. destruct (_ =? 0)%Z; [cbn; lia | apply shown_digits; cbn; lia]. }
  unfold show. destruct (n <? 0)%Z; [cbn [length]; lia | apply D].
Qed.
Lemma repr_length u x : 2 <= length (repr u x).
Proof.
  unfold repr. destruct (64 <=? _); [cbn; lia |]. destruct (choose u x) as [[w v] |]; [| cbn; lia].
  rewrite app_length. pose proof (shown v). destruct w; cbn [name length]; lia.
Qed.
Lemma pass_length us : length (pass us) = 12 \/ 16 <= length (pass us).
Proof.
  destruct us as [| u t]; [now left | right]. unfold pass. cbn [flat_map]. rewrite !app_length. pose proof (repr_length MS u). cbn [opening comma closing length]. lia.
Qed.
Lemma debug : forall first us a b, to_string false [] first = Ok a -> to_string false [] us = Ok b ->
  (30 <= length a -> length b <= length a -> to_string true first us = Ok b) /\
  (length a < 30 \/ length a < length b -> to_string true first us = Halt).
Proof.
  assert (R : forall us, to_string false [] us = Ok (pass us)) by (intros us; unfold to_string, sassert; destruct (_ <=? _); destruct (_ =? _); reflexivity).
  intros first us a b A B. rewrite R in A, B. injection A as <-. injection B as <-. pose proof (pass_length first) as P.
  unfold to_string. cbv zeta. remember (length (pass first)) as n eqn:En. remember (length (pass us)) as m eqn:Em. clear En. unfold sassert, reserved.
  split.
  - intros L M. destruct (Nat.leb_spec m n); [| lia]. destruct (Nat.leb_spec n 15); [lia |]. destruct (Nat.ltb_spec n 30); [lia |].
    cbn [bind]. now rewrite Nat.eqb_refl.
  - intros L. destruct (Nat.leb_spec m n); [| reflexivity]. cbn [bind]. destruct (Nat.leb_spec n 15).
    + destruct (Nat.eqb_spec 15 n); [lia | reflexivity].
    + destruct (Nat.ltb_spec n 30); [| lia]. destruct (Nat.eqb_spec 30 n); [lia | reflexivity].
Qed.
Theorem C99_debug : forall first us a b, to_string false [] first = Ok a -> to_string false [] us = Ok b ->
  (30 <= length a -> length b <= length a -> to_string true first us = Ok b) /\
  (length a < 30 \/ length a < length b -> to_string true first us = Halt).
Proof. exact debug. Qed.
Print Assumptions C99_debug.
Example C99_debug_case : to_string true [1500; 2500; 3500; 4500; 5500]%Z [1500; 2500; 3500; 4500; 5400]%Z =
  Ok (opening ++ [50; 115; 44; 32] ++ [51; 115; 44; 32] ++ [52; 115; 44; 32] ++ [53; 115; 44; 32] ++ [53; 115; 44; 32] ++ [93]).
Proof. vm_compute. reflexivity. Qed.
(** So it stops for an empty pipeline, for one with a single event, and when a time needs more characters in the second pass *)
Theorem C99_debug_refuted : to_string true [] [] = Halt /\ (exists u, to_string true [u] [u] = Halt) /\
  (exists us vs, Forall2 (fun u v => u = v + 1)%Z us vs /\ to_string true us us <> Halt /\ to_string true us vs = Halt).
Proof.
  split; [reflexivity |]. split; [exists 5000%Z; reflexivity |].
  exists [1000; 50000; 50000; 50000; 50000]%Z, [999; 49999; 49999; 49999; 49999]%Z. split; [repeat constructor |]. split; [vm_compute; discriminate | vm_compute; reflexivity].
Qed.
Print Assumptions C99_debug_refuted.
