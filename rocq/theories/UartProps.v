(** Property C101: reading a serial port. *)
From Coq Require Import List ZArith Bool Lia Arith.
From Verif Require Import Base UartModel.
Import ListNotations.
Open Scope Z_scope.

(** Bytes are read one by one, [n] times, each together with the answer *)
Fixpoint read_all (n : nat) (p : port) : list (bool * Z) :=
  match n with O => [] | S k => let '(ok, v, p') := read_byte p in (ok, v) :: read_all k p' end.
(** As long as there are bytes, they are read as they came *)
Lemma reads : forall n p, Forall (fun b => 0 <= b < 256) (rx p) -> (n <= available p)%nat -> read_all n p = map (fun b => (true, b)) (firstn n (rx p)).
Proof.
  unfold available. induction n as [| n IH]; intros [r t] F A; [reflexivity |]. cbn [rx] in *. destruct r as [| b r]; [cbn in A; lia |]. inversion F; subst.
  cbn [read_all]. unfold read_byte, stream_read. cbn [rx tx]. cbn [firstn map]. f_equal; [f_equal; now apply Z.mod_small |].
  apply (IH (mkPort r t)); [assumption | cbn in *; lia].
Qed.
Theorem C101_read_partial : forall n p, Forall (fun b => 0 <= b < 256) (rx p) -> (n <= available p)%nat -> read_all n p = map (fun b => (true, b)) (firstn n (rx p)).
Proof. exact reads. Qed.
Print Assumptions C101_read_partial.
Example C101_read_case : read_all 2 (mkPort [104; 105; 33] []) = [(true, 104); (true, 105)].
Proof. reflexivity. Qed.
(** Nothing is received twice: what is read as a block and what is left are together what was received *)
Theorem C101_block : forall n p, let '(bs, p') := read_bytes n p in bs ++ rx p' = rx p /\ length bs = min n (available p) /\ tx p' = tx p.
Proof. intros n [r t]. cbn. split; [apply firstn_skipn | split; [apply firstn_length | reflexivity]]. Qed.
Print Assumptions C101_block.
Example C101_block_case : read_bytes 2 (mkPort [104; 105; 33] [7]) = ([104; 105], mkPort [33] [7]) /\ read_bytes 5 (mkPort [104] []) = ([104], mkPort [] []).
Proof. split; reflexivity. Qed.
(** Any sequence of reading and writing: what has been given out and what is left are together what was received, and what is sent
    is what was written, in that order; every write says that all was written. Reading single bytes is done while there are any. *)
Inductive use := Take | TakeBlock (n : nat) | Put (b : Z) | PutBlock (bs : list Z).
Definition use1 (o : use) (p : port) : list Z * nat * port :=
  match o with
  | Take => let '(_, v, p') := read_byte p in ([v], O, p')
  | TakeBlock n => let '(bs, p') := read_bytes n p in (bs, O, p')
  | Put b => let '(ok, p') := write_byte b p in ([], if ok then 1%nat else O, p')
  | PutBlock bs => let '(n, p') := write_bytes bs p in ([], n, p')
  end.
Fixpoint used (os : list use) (p : port) : list Z * nat * port :=
  match os with [] => ([], O, p) | o :: os => let '(bs, n, p1) := use1 o p in let '(bs', n', p2) := used os p1 in (bs ++ bs', (n + n')%nat, p2) end.
Definition written (o : use) : list Z := match o with Put b => [b] | PutBlock bs => bs | _ => [] end.
Fixpoint fed (os : list use) (p : port) : Prop :=
  match os with [] => True | o :: os => (o = Take -> (0 < available p)%nat) /\ fed os (snd (use1 o p)) end.
Lemma history : forall os p, Forall (fun b => 0 <= b < 256) (rx p) -> fed os p ->
  let '(bs, n, p') := used os p in
  bs ++ rx p' = rx p /\ tx p' = tx p ++ flat_map written os /\ n = length (flat_map written os).
Proof.
  induction os as [| o os IH]; intros [r t] F H; [cbn; rewrite app_nil_r; auto |]. cbn [fed] in H. destruct H as [H1 H2]. cbn [rx] in F.
  assert (Forall (fun b => 0 <= b < 256) (rx (snd (use1 o (mkPort r t))))) as F'.
  { destruct o; cbn; auto; [| now rewrite <- (firstn_skipn n r), Forall_app in F]. unfold read_byte, stream_read. destruct r; cbn; auto. now inversion F. }
  specialize (IH _ F' H2). cbn [used flat_map]. destruct o; cbn [use1 written app] in *.
  - destruct r as [| b r]; [specialize (H1 eq_refl); cbn in H1; lia |]. cbn [read_byte stream_read rx tx snd] in *. unfold read_byte, stream_read in *. cbn [rx tx snd] in *.
    destruct (used os (mkPort r t)) as [[bs n] p']. destruct IH as (E1 & E2 & E3). assert (0 <= b < 256) by (now inversion F). rewrite Z.mod_small by assumption. cbn [app Nat.add]. rewrite E1. auto.
  - unfold read_bytes in *. cbn [rx tx snd] in *. destruct (used os (mkPort (skipn n r) t)) as [[bs k] p']. destruct IH as (E1 & E2 & E3).
    rewrite <- app_assoc, E1, firstn_skipn. auto.
  - unfold write_byte in *. cbn [rx tx snd] in *. destruct (used os (mkPort r (t ++ [b]))) as [[bs k] p']. destruct IH as (E1 & E2 & E3).
    cbn [app length]. rewrite E2, <- app_assoc, E3. auto.
  - unfold write_bytes in *. cbn [rx tx snd] in *. destruct (used os (mkPort r (t ++ bs))) as [[bs' k] p']. destruct IH as (E1 & E2 & E3).
    cbn [app]. rewrite E2, <- app_assoc, app_length, E3. auto.
Qed.
Theorem C101_history : forall os p, Forall (fun b => 0 <= b < 256) (rx p) -> fed os p ->
  let '(bs, n, p') := used os p in
  bs ++ rx p' = rx p /\ tx p' = tx p ++ flat_map written os /\ n = length (flat_map written os).
Proof. exact history. Qed.
Print Assumptions C101_history.
Example C101_history_case : fed [Put 1; Take; PutBlock [2; 3]; TakeBlock 5] (mkPort [104; 105; 33] [9]) /\
  used [Put 1; Take; PutBlock [2; 3]; TakeBlock 5] (mkPort [104; 105; 33] [9]) = ([104; 105; 33], 3%nat, mkPort [] [9; 1; 2; 3]).
Proof. cbn. split; [repeat split; try discriminate; lia | reflexivity]. Qed.
(** Without a byte the answer is true as well and the byte is 255, as if a 255 had been received *)
Theorem C101_empty_refuted : exists p q, available p = 0%nat /\ rx q = [255] /\ fst (read_byte p) = (true, 255) /\ fst (read_byte q) = (true, 255).
Proof. exists (mkPort [] []), (mkPort [255] []). auto. Qed.
Print Assumptions C101_empty_refuted.
