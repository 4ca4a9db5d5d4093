(** Properties C51, C52, C79 to C82: strings. *)
From Coq Require Import List Arith ZArith Bool Lia.
From Verif Require Import Base FloatModel StrModel StrSpec StrProofs.
Import ListNotations.
Open Scope nat_scope.

(** C51. starts_with is right for all strings; ends_with for needles that are not longer than the string. (The same code is used for
    plain strings and StaticString.) *)
Theorem C51_starts_with : forall s n, exists b, starts_with s n = Ok b /\ (b = true <-> prefix n s).
Proof. exact starts_ok. Qed.
Print Assumptions C51_starts_with.
Example C51_starts_with_case : starts_with [97] [97; 98] = Ok false /\ prefix [97; 98] [97; 98; 99] /\ starts_with [97; 98; 99] [97; 98] = Ok true.
Proof. split; [reflexivity|]. split; [exists [99]|]; reflexivity. Qed.
Theorem C51_ends_with_partial : forall s n, length n <= length s -> (Z.of_nat (length s) < 2 ^ 64)%Z ->
  exists b, ends_with s n = Ok b /\ (b = true <-> suffix n s).
Proof. exact ends_ok. Qed.
Print Assumptions C51_ends_with_partial.
Example C51_ends_with_case : suffix [98; 99] [97; 98; 99] /\ ends_with [97; 98; 99] [98; 99] = Ok true /\ ends_with [97; 98; 99] [97; 98] = Ok false.
Proof. split; [exists [97]; reflexivity|]. split; reflexivity. Qed.
(** Every longer needle makes ends_with throw out_of_range *)
Theorem C51_ends_with_refuted : (forall s n, length s < length n -> (Z.of_nat (length n) < 2 ^ 64)%Z -> ends_with s n = Throw) /\
  exists s n, ends_with s n = Throw /\ ~ suffix n s.
Proof.
  split; [exact ends_throws |]. exists [97], [98; 97]. split; [reflexivity |]. intros [r E]. apply (f_equal (@length nat)) in E. rewrite app_length in E. simpl in E. lia.
Qed.
Print Assumptions C51_ends_with_refuted.
Example C51_case : starts_with [97; 98; 99] [97; 98] = Ok true /\ ends_with [97; 98; 99] [98; 99] = Ok true /\ ends_with [97; 98; 99] [98] = Ok false /\
  ends_with [] [] = Ok true.
Proof. vm_compute. auto. Qed.

(** C52. lstrip, on a string with a character that is not a delimiter *)
Theorem C52_lstrip_partial : forall ds v, inside v -> (exists c, In c (text v) /\ ~ In c ds) ->
  exists v', lstrip ds v = Ok v' /\ mem v' = mem v /\ inside v' /\ front_stripped ds (text v) (text v').
Proof. exact lstrip_ok. Qed.
Print Assumptions C52_lstrip_partial.
Example C52_lstrip_case : let v := mkView [120; 32; 9; 97; 32; 98] 1 4 in inside v /\ text v = [32; 9; 97; 32] /\
  exists v', lstrip blanks v = Ok v' /\ text v' = [97; 32].
Proof. split; [split; simpl; lia|]. split; [reflexivity|]. eexists. split; reflexivity. Qed.
(** Otherwise it reads on: to the end of the block, or into text that is not part of the string, which gives a string of almost 2^64
    characters *)
Theorem C52_lstrip_refuted :
  (exists v, inside v /\ lstrip blanks v = UB) /\
  (exists v v', inside v /\ lstrip blanks v = Ok v' /\ ~ inside v' /\ len v' = (2 ^ 64 - 1)%Z).
Proof.
  split.
  - exists (mkView [32; 32] 0 2). split; [| reflexivity]. split; simpl; lia.
  - exists (mkView [32; 32; 120] 0 1), (mkView [32; 32; 120] 2 (2 ^ 64 - 1)). split; [split; simpl; lia |]. split; [reflexivity |]. split; [| reflexivity].
    intros [_ H]. cbn [len off mem length] in H. lia.
Qed.
Print Assumptions C52_lstrip_refuted.
(** rstrip takes the characters off the wrong end: always as many from the front as there are delimiters at the back *)
Theorem C52_rstrip_refuted : (forall ds v p c s, inside v -> text v = s ++ c :: p -> Forall (fun c => In c ds) p -> ~ In c ds ->
    exists v', rstrip ds v = Ok v' /\ mem v' = mem v /\ text v' = skipn (length p) (text v)) /\
  exists v v', inside v /\ text v = [97; 98; 32] /\ rstrip blanks v = Ok v' /\ text v' = [98; 32].
Proof.
  split; [exact rstrip_shift |]. exists (mkView [97; 98; 32; 0] 0 3). eexists. split; [split; simpl; lia |].
  split; [reflexivity |]. split; reflexivity.
Qed.
Print Assumptions C52_rstrip_refuted.
(** StaticString: lstrip is right whenever '\0' is not a delimiter, rstrip when there is something left *)
Theorem C52_static_partial : forall cap dbg ds s, reached cap s ->
  (~ In nul ds -> exists s', slstrip dbg ds s = Ok s' /\ front_stripped ds (sview s) (sview s')) /\
  ((exists c, In c (sview s) /\ ~ In c ds) -> exists s', srstrip dbg ds s = Ok s' /\ back_stripped ds (sview s) (sview s')).
Proof.
  intros cap dbg ds s R. apply reached_wf in R. split; intros H.
  - destruct (slstrip_ok cap dbg ds s R H) as (s' & E & _ & F). eauto.
  - destruct (srstrip_ok cap dbg ds s R H) as (s' & E & _ & F). eauto.
Qed.
Print Assumptions C52_static_partial.
Example C52_static_case : exists s s', reached 6 s /\ sview s = [97; 32; 9] /\ srstrip false blanks s = Ok s' /\ sview s' = [97].
Proof.
  do 2 eexists. split; [exists true, [SPut [97; 32; 9]]; split; [constructor; [simpl; lia | constructor] | reflexivity] |].
  repeat split; reflexivity.
Qed.
(** StaticString::rstrip of a string of delimiters only, or of an empty one, reads before the first character *)
Theorem C52_static_refuted : (forall dbg ds s, Forall (fun c => In c ds) (sview s) -> srstrip dbg ds s = UB) /\
  exists cap s, reached cap s /\ sview s = [] /\ srstrip true blanks s = UB.
Proof.
  split; [exact srstrip_all |]. exists 3, (mkSs (repeat nul 4) 0). split; [| split; reflexivity].
  exists true, [SSize 0]. split; [repeat constructor | reflexivity].
Qed.
Print Assumptions C52_static_refuted.
Example C52_case : (exists v', lstrip blanks (mkView [32; 9; 97; 98; 32] 0 5) = Ok v' /\ text v' = [97; 98; 32]) /\
  exists s s' s'', put true [32; 97; 32; 32] (smake 6) = Ok s /\ slstrip true blanks s = Ok s' /\ srstrip true blanks s' = Ok s'' /\ sview s'' = [97] /\ reached 6 s.
Proof.
  split; [eexists; split; reflexivity |]. do 3 eexists. split; [reflexivity |]. split; [reflexivity |]. split; [reflexivity |]. split; [reflexivity |].
  exists true, [SPut [32; 97; 32; 32]]. split; [| reflexivity]. constructor; [simpl; lia | constructor].
Qed.

(** C79. find_first_of *)
Theorem C79_find_first_of : forall s ds,
  match find_first_of s ds with
  | None => Forall (fun c => ~ In c ds) s
  | Some k => exists p c r, s = p ++ c :: r /\ Forall (fun c => ~ In c ds) p /\ In c ds /\ k = length p
  end.
Proof. intros s ds. exact (find_from_spec ds s 0). Qed.
Print Assumptions C79_find_first_of.
Example C79_case : find_first_of [97; 44; 98; 44] [59; 44] = Some 1 /\ find_first_of [97] [44] = None.
Proof. auto. Qed.

(** C80. to_float reads a number whose last digit is followed by '\0' *)
Theorem C80_number_partial : forall v r, inside v -> skipn (off v + Z.to_nat (len v)) (mem v) = nul :: r -> text v <> [] ->
  Forall (fun c => 48 <= c <= 57) (text v) -> to_float v = Ok (f_ofZ (decimal (text v))).
Proof.
  intros v r I E N F. apply (to_float_number v r I E N). eapply Forall_impl; [| exact F]. intros c [A B]. unfold is_digit.
  apply andb_true_iff. split; now apply Nat.leb_le.
Qed.
Print Assumptions C80_number_partial.
Example C80_number_case : let v := mkView [32; 52; 48; 0] 1 2 in inside v /\ text v = [52; 48] /\ to_float v = Ok (f_ofZ 40).
Proof. split; [split; simpl; lia|]. split; reflexivity. Qed.
(** Otherwise the result depends on what follows the string: "12" gives 12, 123 or 0, and at the end of a block it reads outside *)
Theorem C80_number_refuted : exists a b c d, text a = [49; 50] /\ text b = text a /\ text c = text a /\ text d = text a /\
  inside a /\ inside b /\ inside c /\ inside d /\
  to_float a = Ok (f_ofZ 12) /\ to_float b = Ok (f_ofZ 123) /\ to_float c = Ok f_zero /\ to_float d = UB.
Proof.
  exists (mkView [49; 50; 0] 0 2), (mkView [49; 50; 51; 0] 0 2), (mkView [49; 50; 44; 0] 0 2), (mkView [49; 50] 0 2).
  do 4 (split; [reflexivity |]). do 4 (split; [split; simpl; lia |]). repeat split; reflexivity.
Qed.
Print Assumptions C80_number_refuted.
Example C80_case : to_float (mkView [32; 49; 50; 0] 1 2) = Ok (f_ofZ 12). Proof. reflexivity. Qed.

(** C81. concat of any number of terminated strings is their concatenation with one terminator *)
Theorem C81_concat : forall l, concat (map literal l) = literal (List.concat l).
Proof. exact concat_literal. Qed.
Print Assumptions C81_concat.
Example C81_case : concat [[97; 98; 0]; [0]; [99; 0]] = [97; 98; 99; 0]. Proof. reflexivity. Qed.

(** C82. A StaticString keeps its storage and its terminator, and shows what was written *)
Theorem C82_storage : forall cap s, reached cap s ->
  capacity s = cap /\ ssize s <= cap /\ nth_error (smem s) (ssize s) = Some nul /\ length (smem s) = S cap.
Proof. intros cap s R. apply reached_wf in R. split; [now apply capacity_wf |]. destruct R as (L & B & T). auto. Qed.
Print Assumptions C82_storage.
Example C82_storage_case : exists s, reached 4 s /\ sview s = [97; 98] /\ smem s = [97; 98; 0; 0; 0] /\ ssize s = 2.
Proof.
  eexists. split; [exists true, [SPut [97; 98]]; split; [constructor; [simpl; lia | constructor] | reflexivity] |]. repeat split; reflexivity.
Qed.
Theorem C82_written : forall cap dbg s l, reached cap s -> 0 < length l <= cap -> exists s', put dbg l s = Ok s' /\ sview s' = l.
Proof. intros cap dbg s l R H. destruct (put_ok cap dbg s l (reached_wf _ _ R) H) as (s' & E & _ & V). eauto. Qed.
Print Assumptions C82_written.
Example C82_written_case : exists s s', reached 4 s /\ sview s = [97; 98; 99; 100] /\ put true [101] s = Ok s' /\ sview s' = [101].
Proof.
  do 2 eexists. split; [exists true, [SPut [97; 98; 99; 100]]; split; [constructor; [simpl; lia | constructor] | reflexivity] |]. repeat split; reflexivity.
Qed.
Theorem C82_set_size : forall cap dbg s n, reached cap s ->
  if dbg && (cap <? n) then set_size dbg n s = Halt
  else exists s', set_size dbg n s = Ok s' /\ ssize s' = Nat.min n cap /\ sview s' = firstn n (sview s) ++ repeat nul (Nat.min n cap - ssize s).
Proof.
  intros cap dbg s n R. apply reached_wf in R. destruct (dbg && (cap <? n)) eqn:D.
  - apply andb_true_iff in D. destruct D as [-> D]. apply Nat.ltb_lt in D. now apply (set_size_halts cap).
  - destruct (set_size_ok cap dbg s n R) as (s' & E & _ & V & Z); [| eauto]. intros ->. apply Nat.ltb_ge in D. exact D.
Qed.
Print Assumptions C82_set_size.
Example C82_case : exists s s', reached 4 s /\ sview s = [97; 98] /\ set_size false 9 s = Ok s' /\ sview s' = [97; 98; 0; 0] /\ set_size true 9 s = Halt.
Proof.
  do 2 eexists. split; [exists true, [SPut [97; 98]]; split; [constructor; [simpl; lia | constructor] | reflexivity] |].
  repeat split; reflexivity.
Qed.
