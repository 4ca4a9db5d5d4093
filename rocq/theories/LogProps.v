(** Properties C54, C84, C85 and C86. *)
From Coq Require Import List Arith ZArith Bool Lia.
From Verif Require Import Base ReprModel ReprSpec LogModel LogSpec LogProofs.
Import ListNotations.
Open Scope nat_scope.

(** C54: a message of any length that is not a debug message is shown, cut to the size of the buffer, whatever was in the buffer. *)
Lemma c54_text : forall buf o ms l file line func msg, 20 < length buf -> (Z.of_nat (length buf) < 2 ^ 64)%Z -> (0 <= line)%Z ->
  no_nul msg -> no_nul file -> no_nul func -> l <> DEBUG \/ length msg + 20 <= length buf ->
  exists text, log_text o ms l file line func msg text /\ print buf o ms l file line func msg = Ok (firstn (length buf - 1) text).
Proof.
  intros buf o ms l file line func msg S B L M F G D. exists (full o ms l file line func msg). split; [now apply full_text |]. apply print_ok; auto.
  intros ->. rewrite app_length. pose proof (header_short o ms DEBUG). destruct D as [D | D]; [now elim D | lia].
Qed.
Theorem C54_text_partial : forall buf o ms l file line func msg, 20 < length buf -> (Z.of_nat (length buf) < 2 ^ 64)%Z -> (0 <= line)%Z ->
  no_nul msg -> no_nul file -> no_nul func -> l <> DEBUG \/ length msg + 20 <= length buf ->
  exists text, log_text o ms l file line func msg text /\ print buf o ms l file line func msg = Ok (firstn (length buf - 1) text).
Proof. exact c54_text. Qed.
Print Assumptions C54_text_partial.
(** A message of 300 characters in a buffer of 256 characters: the last ones shown are of the message *)
Example C54_text_case : exists t, print (repeat 7 256) false 12345 INFO [] 1 [] (repeat 97 300) = Ok t /\ length t = 255 /\ firstn 12 t = [91; 48; 48; 48; 49; 50; 51; 52; 53; 93; 32; 91] /\ nth 254 t 0 = 97.
Proof. eexists. repeat split. Qed.
Example C54_debug_case : print (repeat 7 256) false 12345 DEBUG [102] 17 [103] [104; 105] =
  Ok ([91; 48; 48; 48; 49; 50; 51; 52; 53; 93; 32; 91; 68; 66; 71; 93; 32] ++ [104; 105] ++ [32; 40; 102; 58; 49; 55; 32; 103; 41]).
Proof. reflexivity. Qed.

(** A debug message that does not fit is written behind the end of the buffer, for every such message. *)
Theorem C54_overflow : forall buf o ms file line func msg, 20 < length buf -> (Z.of_nat (length buf) < 2 ^ 64)%Z ->
  (Z.of_nat (length (header o ms DEBUG ++ msg)) < 2 ^ 64)%Z ->
  length buf < length (header o ms DEBUG ++ msg) -> print buf o ms DEBUG file line func msg = UB.
Proof. exact print_overflow. Qed.
Print Assumptions C54_overflow.
Theorem C54_overflow_refuted : exists buf msg, length buf = 256 /\ no_nul msg /\ print buf false 0 DEBUG [102] 1 [103] msg = UB.
Proof. exists (repeat 0 256), (repeat 97 300). split; [reflexivity |]. split; [intros H; apply repeat_spec in H; discriminate | reflexivity]. Qed.
Print Assumptions C54_overflow_refuted.
Example C54_overflow_case : print (repeat 0 256) false 0 DEBUG [102] 1 [103] (repeat 97 240) = UB.
Proof. apply C54_overflow; vm_compute; auto; repeat constructor. Qed.

(** C84: printf shows the first 255 characters of its text. *)
Lemma hal_printf_ok : forall buf msg, 0 < length buf -> no_nul msg -> hal_printf buf msg = Ok (firstn (length buf - 1) msg).
Proof. intros buf msg L N. unfold hal_printf. destruct (snprintf_first buf msg L) as (b & -> & H). cbn [bind]. apply (holds_shown _ _ _ H N). Qed.
Theorem C84_printf : forall buf msg, 0 < length buf -> no_nul msg -> hal_printf buf msg = Ok (firstn (length buf - 1) msg).
Proof. exact hal_printf_ok. Qed.
Print Assumptions C84_printf.
Example C84_case : hal_printf [9; 9; 9; 9] [65; 66; 67; 68; 69] = Ok [65; 66; 67].
Proof. reflexivity. Qed.

(** C85: in a program that sets levels and logs, a message is shown iff its level is enabled by the level set last, in order and once. *)
Lemma c85 : forall dbg pre l m post, l <> OFF -> (l = DEBUG -> dbg = true) ->
  let c := last_level (start_level dbg) pre in
  (at_least c l -> lrun dbg (start_level dbg) (pre ++ Log l m :: post) = lrun dbg (start_level dbg) pre ++ (l, m) :: lrun dbg c post) /\
  (~ at_least c l -> lrun dbg (start_level dbg) (pre ++ Log l m :: post) = lrun dbg (start_level dbg) pre ++ lrun dbg c post).
Proof.
  intros dbg pre l m post O D c. rewrite (lrun_shown dbg _ pre l m post O D). fold c.
  destruct (is_loggable c l) eqn:E; split; intros A; try reflexivity.
  - apply loggable_spec in E. contradiction.
  - apply loggable_spec in A. congruence.
Qed.
Theorem C85_levels : forall dbg pre l m post, l <> OFF -> (l = DEBUG -> dbg = true) ->
  let c := last_level (start_level dbg) pre in
  (at_least c l -> lrun dbg (start_level dbg) (pre ++ Log l m :: post) = lrun dbg (start_level dbg) pre ++ (l, m) :: lrun dbg c post) /\
  (~ at_least c l -> lrun dbg (start_level dbg) (pre ++ Log l m :: post) = lrun dbg (start_level dbg) pre ++ lrun dbg c post).
Proof. exact c85. Qed.
Print Assumptions C85_levels.
Example C85_levels_case : last_level (start_level false) [Log INFO 1; SetLevel WARN] = WARN /\
  lrun false (start_level false) ([Log INFO 1; SetLevel WARN] ++ Log ERR 2 :: [Log INFO 3]) = [(INFO, 1); (ERR, 2)] /\
  lrun false (start_level false) ([Log INFO 1; SetLevel WARN] ++ Log INFO 2 :: [Log WARN 3]) = [(INFO, 1); (WARN, 3)].
Proof. auto. Qed.
(** At the start everything up to INFO is shown, in debug builds everything; without debug no debug message ever is. *)
Theorem C85_start : forall dbg l, l <> OFF -> (at_least (start_level dbg) l <-> l <> DEBUG \/ dbg = true).
Proof. intros [|] [] H; simpl; split; intros A; auto; try contradiction; try (left; discriminate); destruct A as [A | A]; try discriminate; now elim A. Qed.
Print Assumptions C85_start.
Example C85_start_case : at_least (start_level false) INFO /\ ~ at_least (start_level false) DEBUG /\ at_least (start_level true) DEBUG.
Proof. split; [| split]; try exact I; intros []. Qed.
Lemma c85_release : forall c os m, ~ In (DEBUG, m) (lrun false c os).
Proof.
  intros c os m. revert c. induction os as [| o os IH]; intros c; [intros [] |]. destruct o as [l | l n]; cbn [lrun]; [apply IH |].
  destruct l; cbn [andb]; try (destruct (is_loggable _ _)); try apply IH; intros [E | E]; try discriminate; now apply (IH c).
Qed.
Theorem C85_release : forall c os m, ~ In (DEBUG, m) (lrun false c os).
Proof. exact c85_release. Qed.
Print Assumptions C85_release.
Example C85_release_case : lrun false DEBUG [SetLevel DEBUG; Log DEBUG 1; Log INFO 2] = [(INFO, 2)].
Proof. reflexivity. Qed.
Example C85_case : lrun true (start_level true) [Log DEBUG 1; SetLevel WARN; Log INFO 2; Log WARN 3; SetLevel OFF; Log ERR 4; SetLevel INFO; Log INFO 5] =
  [(DEBUG, 1); (WARN, 3); (INFO, 5)].
Proof. reflexivity. Qed.
(** On Zephyr, switching the log off leaves errors on in the backend. *)
Theorem C85_zephyr_off_refuted : exists l, last (zephyr_set_log_level l) DEBUG <> l.
Proof. exists OFF. discriminate. Qed.
Print Assumptions C85_zephyr_off_refuted.
Theorem C85_zephyr_partial : forall l, l <> OFF -> zephyr_set_log_level l = [l].
Proof. intros [] H; try reflexivity. now elim H. Qed.
Print Assumptions C85_zephyr_partial.
Example C85_zephyr_case : zephyr_set_log_level WARN = [WARN].
Proof. reflexivity. Qed.

(** C86: an exception reaches the handler installed last, once, and then halts the platform unless the handler leaves by a C++
    exception; installing gives back the handler installed before. *)
Lemma c86_throw : forall lv pre e post, let h := installed None pre in
  xrun lv None (pre ++ Raise e :: post) =
  xrun lv None pre ++ match h with Some h => [Handled h e; if lv h then Escaped else Halted] | None => [Halted] end ++ xrun lv h post.
Proof.
  intros lv pre e post h. rewrite xrun_app. fold h. f_equal. cbn [xrun]. f_equal. unfold throw_error. destruct h as [h |]; [| reflexivity]. destruct (lv h); reflexivity.
Qed.
Theorem C86_throw : forall lv pre e post, let h := installed None pre in
  xrun lv None (pre ++ Raise e :: post) =
  xrun lv None pre ++ match h with Some h => [Handled h e; if lv h then Escaped else Halted] | None => [Halted] end ++ xrun lv h post.
Proof. exact c86_throw. Qed.
Print Assumptions C86_throw.
Example C86_throw_case : installed None [Install (Some 1); Raise 3] = Some 1 /\
  xrun (fun h => h =? 2) None ([Install (Some 1); Raise 3] ++ Raise 8 :: [Raise 5]) = [GivenBack None; Handled 1 3; Halted; Handled 1 8; Halted; Handled 1 5; Halted].
Proof. auto. Qed.
Lemma c86_install : forall lv pre h post,
  xrun lv None (pre ++ Install h :: post) = xrun lv None pre ++ GivenBack (installed None pre) :: xrun lv h post.
Proof. intros lv pre h post. rewrite xrun_app. reflexivity. Qed.
Theorem C86_install : forall lv pre h post,
  xrun lv None (pre ++ Install h :: post) = xrun lv None pre ++ GivenBack (installed None pre) :: xrun lv h post.
Proof. exact c86_install. Qed.
Print Assumptions C86_install.
Example C86_case : xrun (fun h => h =? 2) None [Raise 9; Install (Some 1); Raise 8; Install (Some 2); Raise 7; Install None; Raise 6] =
  [Halted; GivenBack None; Handled 1 8; Halted; GivenBack (Some 1); Handled 2 7; Escaped; GivenBack (Some 2); Halted].
Proof. reflexivity. Qed.
