(** Lemmas on Result and on type lists. *)
From Coq Require Import List Arith Bool Lia Eqdep_dec.
From Verif Require Import Base ResultModel ResultSpec.
Import ListNotations.

Section Proofs.
Variable den : nat -> Type.
Variable dbg : bool.

Lemma refl_dec : forall c, Nat.eq_dec c c = left eq_refl.
Proof.
  intros c. destruct (Nat.eq_dec c c) as [E | N]; [| congruence]. f_equal. apply UIP_dec. exact Nat.eq_dec.
Qed.

Lemma get_wrap : forall t e i c (x : den c) s, get den c (@mkR den t e i (wrap den c x) s) = Ok x.
Proof. intros. unfold get, wrap; cbn [rv]. rewrite refl_dec. reflexivity. Qed.

Lemma holds_wrap : forall t e i c (x : den c) s, holds den c (@mkR den t e i (wrap den c x) s) = true.
Proof. intros. unfold holds, wrap; cbn [rv]. apply Nat.eqb_refl. Qed.

Lemma value_good : forall t e i x, value den dbg (@success den t e i x) = Ok x.
Proof. intros. unfold value, success. rewrite holds_wrap, get_wrap. reflexivity. Qed.
Lemma error_bad : forall t e i x, error_value den dbg (@failed den t e i x) = Ok x.
Proof. intros. unfold error_value, failed. rewrite holds_wrap, get_wrap. reflexivity. Qed.
Lemma inter_half : forall t e i x, intermediary_value den dbg (@intermediary den t e i x) = Ok x.
Proof. intros. unfold intermediary_value, intermediary. rewrite holds_wrap, get_wrap. reflexivity. Qed.

Context {t e i : nat}.
Lemma map_acts : forall t' (f : den t -> den t'),
  acts (@rmap den dbg t e i t' f) (fun x => Ok (success den (f x))) (fun x => Ok (intermediary den x)) (fun x => Ok (failed den x)) (Ok (no_value den)).
Proof.
  intros; split; [| split; [| split]]; intros; unfold rmap.
  - rewrite value_good; reflexivity.
  - rewrite inter_half; reflexivity.
  - rewrite error_bad; reflexivity.
  - reflexivity.
Qed.
Lemma map_error_acts : forall e' (f : den e -> den e'),
  acts (@map_error den dbg t e i e' f) (fun x => Ok (success den x)) (fun x => Ok (intermediary den x)) (fun x => Ok (failed den (f x))) (Ok (no_value den)).
Proof.
  intros; split; [| split; [| split]]; intros; unfold map_error.
  - rewrite value_good; reflexivity.
  - rewrite inter_half; reflexivity.
  - rewrite error_bad; reflexivity.
  - reflexivity.
Qed.
Lemma map_intermediary_acts : forall i' (f : den i -> den i'),
  acts (@map_intermediary den dbg t e i i' f) (fun x => Ok (success den x)) (fun x => Ok (intermediary den (f x))) (fun x => Ok (failed den x)) (Ok (no_value den)).
Proof.
  intros; split; [| split; [| split]]; intros; unfold map_intermediary.
  - rewrite value_good; reflexivity.
  - rewrite inter_half; reflexivity.
  - rewrite error_bad; reflexivity.
  - reflexivity.
Qed.
Lemma and_then_acts : forall t' (f : den t -> outcome (result den t' e i)),
  acts (and_then den dbg f) f (fun x => Ok (intermediary den x)) (fun x => Ok (failed den x)) (Ok (no_value den)).
Proof.
  intros; split; [| split; [| split]]; intros; unfold and_then.
  - rewrite value_good; reflexivity.
  - rewrite inter_half; reflexivity.
  - rewrite error_bad; reflexivity.
  - reflexivity.
Qed.
Lemma or_else_acts : forall e' (f : den e -> outcome (result den t e' i)),
  acts (or_else den dbg f) (fun x => Ok (success den x)) (fun x => Ok (intermediary den x)) f (Ok (no_value den)).
Proof.
  intros; split; [| split; [| split]]; intros; unfold or_else.
  - rewrite value_good; reflexivity.
  - rewrite inter_half; reflexivity.
  - rewrite error_bad; reflexivity.
  - reflexivity.
Qed.
Lemma match_acts : forall B (fs : den t -> B) (fe : den e -> B) (fi : den i -> B),
  acts (rmatch den dbg fs fe fi) (fun x => Ok (fs x)) (fun x => Ok (fi x)) (fun x => Ok (fe x)) (if dbg then Halt else UB).
Proof.
  intros; split; [| split; [| split]]; intros; unfold rmatch.
  - rewrite value_good; reflexivity.
  - rewrite inter_half; reflexivity.
  - rewrite error_bad; reflexivity.
  - destruct dbg; reflexivity.
Qed.
Lemma value_or_acts : forall d,
  acts (@value_or den t e i dbg d) (fun x => Ok x) (fun _ => Ok d) (fun _ => Ok d) (Ok d).
Proof.
  intros; split; [| split; [| split]]; intros; unfold value_or; try reflexivity. rewrite value_good; reflexivity.
Qed.
Lemma error_or_acts : forall d,
  acts (@error_or den t e i dbg d) (fun _ => Ok d) (fun _ => Ok d) (fun x => Ok x) (Ok d).
Proof.
  intros; split; [| split; [| split]]; intros; unfold error_or; try reflexivity. rewrite error_bad; reflexivity.
Qed.
Lemma unwrap_or_else_acts : forall f,
  acts (@unwrap_or_else den t e i dbg f) (fun x => Ok x) (fun _ => Ok (f tt)) (fun _ => Ok (f tt)) (Ok (f tt)).
Proof.
  intros; split; [| split; [| split]]; intros; unfold unwrap_or_else; try reflexivity. rewrite value_good; reflexivity.
Qed.

(** Two functions that answer the same in the four states answer the same on every lawful result *)
Lemma acts_eq : forall B (k k' : result den t e i -> outcome B) g h b n g' h' b' n', acts k g h b n -> acts k' g' h' b' n' ->
  (forall x, g x = g' x) -> (forall x, h x = h' x) -> (forall x, b x = b' x) -> n = n' -> forall r, lawful r -> k r = k' r.
Proof.
  intros B k k' g h b n g' h' b' n' (A1 & A2 & A3 & A4) (B1 & B2 & B3 & B4) G H B' N r L.
  destruct L as [| x | x | x].
  - congruence.
  - rewrite A1, B1. apply G.
  - rewrite A2, B2. apply H.
  - rewrite A3, B3. apply B'.
Qed.
Lemma acts_bind : forall B C (k : result den t e i -> outcome B) (f : B -> outcome C) g h b n, acts k g h b n ->
  acts (fun r => y <- k r ;; f y) (fun x => y <- g x ;; f y) (fun x => y <- h x ;; f y) (fun x => y <- b x ;; f y) (y <- n ;; f y).
Proof.
  intros B C k f g h b n (A1 & A2 & A3 & A4). split; [| split; [| split]]; intros; f_equal; auto.
Qed.
Lemma acts_ok : acts (fun r : result den t e i => Ok r) (fun x => Ok (success den x)) (fun x => Ok (intermediary den x)) (fun x => Ok (failed den x)) (Ok (no_value den)).
Proof. split; [| split; [| split]]; reflexivity. Qed.
End Proofs.

Section Laws.
Variable den : nat -> Type.
Variable dbg : bool.

Lemma map_identity : forall t e i (r : result den t e i), lawful r -> rmap den dbg (fun x => x) r = Ok r.
Proof. intros t e i r L. eapply (acts_eq den _ _ _ _ _ _ _ _ _ _ _ (map_acts den dbg t _) (acts_ok den)); auto. Qed.

Lemma map_composition : forall t t' t'' e i (f : den t -> den t') (g : den t' -> den t'') (r : result den t e i), lawful r ->
  (y <- rmap den dbg f r ;; rmap den dbg g y) = rmap den dbg (fun x => g (f x)) r.
Proof.
  intros t t' t'' e i f g r L. destruct (map_acts den dbg (e := e) (i := i) t'' g) as (G1 & G2 & G3 & G4).
  eapply (acts_eq den _ (fun r => y <- rmap den dbg f r ;; rmap den dbg g y) _ _ _ _ _ _ _ _ _ (acts_bind den _ _ _ _ _ _ _ _ (map_acts den dbg t' f)) (map_acts den dbg t'' _)); cbn [bind]; auto.
Qed.

Lemma and_then_assoc : forall t t' t'' e i (f : den t -> outcome (result den t' e i)) (g : den t' -> outcome (result den t'' e i)) (r : result den t e i), lawful r ->
  (y <- and_then den dbg f r ;; and_then den dbg g y) = and_then den dbg (fun x => y <- f x ;; and_then den dbg g y) r.
Proof.
  intros t t' t'' e i f g r L. destruct (and_then_acts den dbg t'' g) as (G1 & G2 & G3 & G4).
  eapply (acts_eq den _ (fun r => y <- and_then den dbg f r ;; and_then den dbg g y) _ _ _ _ _ _ _ _ _ (acts_bind den _ _ _ _ _ _ _ _ (and_then_acts den dbg t' f)) (and_then_acts den dbg t'' _)); cbn [bind]; auto.
Qed.

Lemma or_else_assoc : forall t e e' e'' i (f : den e -> outcome (result den t e' i)) (g : den e' -> outcome (result den t e'' i)) (r : result den t e i), lawful r ->
  (y <- or_else den dbg f r ;; or_else den dbg g y) = or_else den dbg (fun x => y <- f x ;; or_else den dbg g y) r.
Proof.
  intros t e e' e'' i f g r L. destruct (or_else_acts den dbg e'' g) as (G1 & G2 & G3 & G4).
  eapply (acts_eq den _ (fun r => y <- or_else den dbg f r ;; or_else den dbg g y) _ _ _ _ _ _ _ _ _ (acts_bind den _ _ _ _ _ _ _ _ (or_else_acts den dbg e' f)) (or_else_acts den dbg e'' _)); cbn [bind]; auto.
Qed.

Lemma and_then_right : forall t e i (r : result den t e i), lawful r -> and_then den dbg (fun x => Ok (success den x)) r = Ok r.
Proof. intros t e i r L. eapply (acts_eq den _ _ _ _ _ _ _ _ _ _ _ (and_then_acts den dbg t _) (acts_ok den)); auto. Qed.

Lemma map_is_and_then : forall t t' e i (f : den t -> den t') (r : result den t e i), lawful r ->
  rmap den dbg f r = and_then den dbg (fun x => Ok (success den (f x))) r.
Proof. intros t t' e i f r L. eapply (acts_eq den _ _ _ _ _ _ _ _ _ _ _ (map_acts den dbg t' _) (and_then_acts den dbg t' _)); auto. Qed.

Lemma map_error_identity : forall t e i (r : result den t e i), lawful r -> map_error den dbg (fun x => x) r = Ok r.
Proof. intros t e i r L. eapply (acts_eq den _ _ _ _ _ _ _ _ _ _ _ (map_error_acts den dbg e _) (acts_ok den)); auto. Qed.

Lemma map_error_composition : forall t e e' e'' i (f : den e -> den e') (g : den e' -> den e'') (r : result den t e i), lawful r ->
  (y <- map_error den dbg f r ;; map_error den dbg g y) = map_error den dbg (fun x => g (f x)) r.
Proof.
  intros t e e' e'' i f g r L. destruct (map_error_acts den dbg (t := t) (i := i) e'' g) as (G1 & G2 & G3 & G4).
  eapply (acts_eq den _ (fun r => y <- map_error den dbg f r ;; map_error den dbg g y) _ _ _ _ _ _ _ _ _ (acts_bind den _ _ _ _ _ _ _ _ (map_error_acts den dbg e' f)) (map_error_acts den dbg e'' _)); cbn [bind]; auto.
Qed.

Lemma map_commutes : forall t t' e e' i (f : den t -> den t') (g : den e -> den e') (r : result den t e i), lawful r ->
  (y <- rmap den dbg f r ;; map_error den dbg g y) = (y <- map_error den dbg g r ;; rmap den dbg f y).
Proof.
  intros t t' e e' i f g r L.
  destruct (map_error_acts den dbg (t := t') (i := i) e' g) as (G1 & G2 & G3 & G4).
  destruct (map_acts den dbg (e := e') (i := i) t' f) as (F1 & F2 & F3 & F4).
  eapply (acts_eq den _ (fun r => y <- rmap den dbg f r ;; map_error den dbg g y) (fun r => y <- map_error den dbg g r ;; rmap den dbg f y) _ _ _ _ _ _ _ _
    (acts_bind den _ _ _ _ _ _ _ _ (map_acts den dbg t' f)) (acts_bind den _ _ _ _ _ _ _ _ (map_error_acts den dbg e' g))); cbn [bind]; intros; try exact L; congruence.
Qed.

Lemma match_after_map : forall t t' e e' i i' B (f : den t -> den t') (g : den e -> den e') (h : den i -> den i')
    (fs : den t' -> B) (fe : den e' -> B) (fi : den i' -> B) (r : result den t e i), lawful r ->
  (a <- rmap den dbg f r ;; b <- map_error den dbg g a ;; c <- map_intermediary den dbg h b ;; rmatch den dbg fs fe fi c) =
  rmatch den dbg (fun x => fs (f x)) (fun x => fe (g x)) (fun x => fi (h x)) r.
Proof.
  intros t t' e e' i i' B f g h fs fe fi r L.
  destruct (map_acts den dbg (e := e) (i := i) t' f) as (A1 & A2 & A3 & A4).
  destruct (map_error_acts den dbg (t := t') (i := i) e' g) as (B1 & B2 & B3 & B4).
  destruct (map_intermediary_acts den dbg (t := t') (e := e') i' h) as (C1 & C2 & C3 & C4).
  destruct (match_acts den dbg B fs fe fi) as (D1 & D2 & D3 & D4).
  destruct (match_acts den dbg B (fun x => fs (f x)) (fun x => fe (g x)) (fun x : den i => fi (h x))) as (E1 & E2 & E3 & E4).
  destruct L as [| x | x | x].
  - rewrite A4; cbn [bind]. rewrite B4; cbn [bind]. rewrite C4; cbn [bind]. rewrite D4, E4. reflexivity.
  - rewrite A1; cbn [bind]. rewrite B1; cbn [bind]. rewrite C1; cbn [bind]. rewrite D1, E1. reflexivity.
  - rewrite A2; cbn [bind]. rewrite B2; cbn [bind]. rewrite C2; cbn [bind]. rewrite D2, E2. reflexivity.
  - rewrite A3; cbn [bind]. rewrite B3; cbn [bind]. rewrite C3; cbn [bind]. rewrite D3, E3. reflexivity.
Qed.

(** ** Nothing else can be made *)
Lemma acts_lawful : forall t e i t' e' i' (k : result den t e i -> outcome (result den t' e' i')) g h b n, acts k g h b n ->
  (forall x, ends_lawful (g x)) -> (forall x, ends_lawful (h x)) -> (forall x, ends_lawful (b x)) -> ends_lawful n ->
  forall r, lawful r -> ends_lawful (k r).
Proof.
  intros t e i t' e' i' k g h b n (A1 & A2 & A3 & A4) G H B N r L.
  destruct L; rewrite ?A1, ?A2, ?A3, ?A4; auto.
Qed.
Lemma lawful_ok : forall t e i (r : result den t e i), lawful r -> ends_lawful (Ok r).
Proof. intros t e i r L r' E. congruence. Qed.

Lemma stays_lawful : forall t e i (r : result den t e i), lawful r ->
  (forall t' (f : den t -> den t'), ends_lawful (rmap den dbg f r)) /\
  (forall e' (f : den e -> den e'), ends_lawful (map_error den dbg f r)) /\
  (forall i' (f : den i -> den i'), ends_lawful (map_intermediary den dbg f r)) /\
  (forall t' (f : den t -> outcome (result den t' e i)), (forall x, ends_lawful (f x)) -> ends_lawful (and_then den dbg f r)) /\
  (forall e' (f : den e -> outcome (result den t e' i)), (forall x, ends_lawful (f x)) -> ends_lawful (or_else den dbg f r)) /\
  (forall fb (f : den i -> outcome (result den t e i)), (forall x, ends_lawful (f x)) -> ends_lawful (chain den fb dbg f r)) /\
  (forall fb, lawful (copy_of_variable den fb r)) /\ (forall cv x, lawful (@from_variable den cv t e i x)).
Proof.
  intros t e i r L.
  assert (Cp : forall fb, lawful (copy_of_variable den fb r)).
  { intros fb. unfold copy_of_variable. destruct (Nat.eq_dec e t); [exact L |]. destruct (fb e); [apply L_bad | exact L]. }
  split; [| split; [| split; [| split; [| split; [| split; [| split]]]]]]; intros.
  - eapply (acts_lawful _ _ _ _ _ _ _ _ _ _ _ (map_acts den dbg t' f)); intros; try exact L; apply lawful_ok; constructor.
  - eapply (acts_lawful _ _ _ _ _ _ _ _ _ _ _ (map_error_acts den dbg e' f)); intros; try exact L; apply lawful_ok; constructor.
  - eapply (acts_lawful _ _ _ _ _ _ _ _ _ _ _ (map_intermediary_acts den dbg i' f)); intros; try exact L; apply lawful_ok; constructor.
  - eapply (acts_lawful _ _ _ _ _ _ _ _ _ _ _ (and_then_acts den dbg t' f)); intros; try exact L; auto; apply lawful_ok; constructor.
  - eapply (acts_lawful _ _ _ _ _ _ _ _ _ _ _ (or_else_acts den dbg e' f)); intros; try exact L; auto; apply lawful_ok; constructor.
  - unfold chain. destruct (is_failed den r || is_success den r); [apply lawful_ok, Cp |].
    intros r' E. destruct (intermediary_value_mut den dbg r) as [x | | | |] eqn:V; try discriminate E. exact (H x r' E).
  - apply Cp.
  - unfold from_variable. destruct (Nat.eq_dec e t); [constructor |]. destruct (cv t e); constructor.
Qed.

(** ** chain, copies and access *)
Lemma chain_acts : forall t e i fb (f : den i -> outcome (result den t e i)), e = t \/ fb e = None ->
  acts (chain den fb dbg f) (fun x => Ok (success den x)) f (fun x => Ok (failed den x)) (if dbg then Halt else UB).
Proof.
  intros t e i fb f H. assert (Cp : forall r : result den t e i, copy_of_variable den fb r = r).
  { intros r. unfold copy_of_variable. destruct (Nat.eq_dec e t); [reflexivity |]. destruct H as [H | H]; [contradiction | rewrite H; reflexivity]. }
  split; [| split; [| split]]; intros; unfold chain.
  - cbn [is_failed is_success is_ok rt success orb]. rewrite Cp. reflexivity.
  - cbn [is_failed is_success is_ok rt intermediary orb]. unfold intermediary_value_mut, intermediary. rewrite get_wrap. reflexivity.
  - cbn [is_failed is_success is_ok rt failed orb]. rewrite Cp. reflexivity.
  - destruct dbg; reflexivity.
Qed.

Lemma chain_lost : forall t e i fb (f : den i -> outcome (result den t e i)) b, e <> t -> fb e = Some b ->
  acts (chain den fb dbg f) (fun _ => Ok (failed den (b true))) f (fun _ => Ok (failed den (b false))) (if dbg then Halt else UB).
Proof.
  intros t e i fb f b N H. assert (Cp : forall r : result den t e i, copy_of_variable den fb r = failed den (b (is_ok den r))).
  { intros r. unfold copy_of_variable. destruct (Nat.eq_dec e t); [contradiction |]. rewrite H; reflexivity. }
  split; [| split; [| split]]; intros; unfold chain.
  - cbn [is_failed is_success is_ok rt success orb]. rewrite Cp. reflexivity.
  - cbn [is_failed is_success is_ok rt intermediary orb]. unfold intermediary_value_mut, intermediary. rewrite get_wrap. reflexivity.
  - cbn [is_failed is_success is_ok rt failed orb]. rewrite Cp. reflexivity.
  - destruct dbg; reflexivity.
Qed.

Lemma copy_kept : forall t e i fb (r : result den t e i), e = t \/ fb e = None -> copy_of_variable den fb r = r.
Proof.
  intros t e i fb r H. unfold copy_of_variable. destruct (Nat.eq_dec e t); [reflexivity |].
  destruct H as [H | H]; [contradiction | rewrite H; reflexivity].
Qed.
Lemma made_success : forall t e i cv (x : den t), e = t \/ cv t e = None -> @from_variable den cv t e i x = success den x.
Proof.
  intros t e i cv x H. unfold from_variable. destruct (Nat.eq_dec e t); [reflexivity |].
  destruct H as [H | H]; [contradiction | rewrite H; reflexivity].
Qed.

Lemma get_other : forall t e i c d (x : den d) s, d <> c -> get den c (@mkR den t e i (wrap den d x) s) = Throw.
Proof. intros. unfold get, wrap; cbn [rv]. destruct (Nat.eq_dec d c); [contradiction | reflexivity]. Qed.

(** value() and its fellows give a payload exactly in their own state: debug builds always, release builds for three different types
    and a Result that is not empty *)
Lemma access_debug : forall t e i (r : result den t e i), lawful r ->
  (forall x, value den true r = Ok x <-> r = success den x) /\ (forall x, error_value den true r = Ok x <-> r = failed den x) /\
  (forall x, intermediary_value den true r = Ok x <-> r = intermediary den x).
Proof.
  intros t e i r L.
  assert (V : forall x, value den true (@success den t e i x) = Ok x) by (intros; unfold value, success; rewrite holds_wrap, get_wrap; reflexivity).
  assert (W : forall x, error_value den true (@failed den t e i x) = Ok x) by (intros; unfold error_value, failed; rewrite holds_wrap, get_wrap; reflexivity).
  assert (U : forall x, intermediary_value den true (@intermediary den t e i x) = Ok x) by (intros; unfold intermediary_value, intermediary; rewrite holds_wrap, get_wrap; reflexivity).
  split; [| split]; intros x; (split; [| intros ->; auto]); destruct L as [| y | y | y]; intros H;
    rewrite ?V, ?W, ?U in H; try discriminate H; congruence.
Qed.
Lemma get_seen : forall t e i c d (x : den c) s, seen_as x (get den d (@mkR den t e i (wrap den c x) s)).
Proof.
  intros. unfold seen_as, get, wrap; cbn [rv]. split.
  - intros E. destruct (Nat.eq_dec c d) as [E'|]; [|contradiction]. rewrite (UIP_dec Nat.eq_dec E' E). reflexivity.
  - intros N. destruct (Nat.eq_dec c d); [contradiction|reflexivity].
Qed.
Lemma access_wrong : forall t e i,
  (forall x, seen_as x (value den false (@intermediary den t e i x)) /\ seen_as x (error_value den false (@intermediary den t e i x))) /\
  (forall x, seen_as x (value den false (@failed den t e i x)) /\ seen_as x (intermediary_value den false (@failed den t e i x))) /\
  (forall x, seen_as x (error_value den false (@success den t e i x)) /\ seen_as x (intermediary_value den false (@success den t e i x))) /\
  value den false (@no_value den t e i) = UB /\ error_value den false (@no_value den t e i) = UB /\ intermediary_value den false (@no_value den t e i) = UB /\
  forall b,
  (forall x, unwrap den b (@success den t e i x) = Ok x) /\
  (forall x, (forall E : i = t, unwrap den b (@intermediary den t e i x) = Ok (eq_rect i den x t E)) /\
             (i <> t -> unwrap den b (@intermediary den t e i x) = if b then Halt else Throw)) /\
  (forall x, unwrap den true (@failed den t e i x) = Halt /\ seen_as x (unwrap den false (@failed den t e i x))) /\
  unwrap den b (@no_value den t e i) = (if b then Halt else UB).
Proof.
  intros t e i.
  assert (S : forall b, sassert false b = Ok tt) by (intros []; reflexivity).
  split; [intros x; split; unfold value, error_value; rewrite !S; cbn [bind]; apply get_seen|].
  split; [intros x; split; unfold value, intermediary_value; rewrite !S; cbn [bind]; apply get_seen|].
  split; [intros x; split; unfold error_value, intermediary_value; rewrite !S; cbn [bind]; apply get_seen|].
  do 3 (split; [reflexivity|]). intros b. split; [|split; [|split]].
  - intros x. unfold unwrap, success. rewrite holds_wrap, get_wrap. destruct b; reflexivity.
  - intros x. split.
    + intros E. unfold unwrap. destruct (get_seen t e i i t x INTERMEDIARY) as [G _]. unfold intermediary. rewrite G with (E := E).
      cbn [is_success is_ok is_intermediary rt orb]. unfold holds, wrap. cbn [rv]. rewrite (proj2 (Nat.eqb_eq _ _) E). destruct b; reflexivity.
    + intros N. unfold unwrap. destruct (get_seen t e i i t x INTERMEDIARY) as [_ G]. unfold intermediary. rewrite (G N).
      cbn [is_success is_ok is_intermediary rt orb]. unfold holds, wrap. cbn [rv]. rewrite (proj2 (Nat.eqb_neq _ _) N). destruct b; reflexivity.
  - intros x. split; [reflexivity|]. unfold unwrap. rewrite !S. cbn [bind]. apply get_seen.
  - destruct b; reflexivity.
Qed.
Lemma access_release : forall t e i (r : result den t e i), t <> e -> t <> i -> e <> i -> lawful r -> r <> no_value den ->
  (forall x, value den false r = Ok x <-> r = success den x) /\ (forall x, error_value den false r = Ok x <-> r = failed den x) /\
  (forall x, intermediary_value den false r = Ok x <-> r = intermediary den x) /\
  ((exists x, r = success den x) \/ value den false r = Throw) /\ ((exists x, r = failed den x) \/ error_value den false r = Throw) /\
  ((exists x, r = intermediary den x) \/ intermediary_value den false r = Throw).
Proof.
  intros t e i r N1 N2 N3 L NV.
  assert (S : forall b, sassert false b = Ok tt) by (intros []; reflexivity).
  unfold value, error_value, intermediary_value. rewrite !S; cbn [bind].
  destruct L as [| y | y | y]; [congruence | | |]; unfold success, failed, intermediary.
  - rewrite get_wrap, !get_other by congruence.
    repeat match goal with |- _ /\ _ => split end; try (right; reflexivity); try (left; eexists; reflexivity); intros x; split; intros H;
      try discriminate H; try congruence.
    injection H as H. apply inj_pair2_eq_dec in H; [congruence | exact Nat.eq_dec].
  - rewrite get_wrap, !get_other by congruence.
    repeat match goal with |- _ /\ _ => split end; try (right; reflexivity); try (left; eexists; reflexivity); intros x; split; intros H;
      try discriminate H; try congruence.
    injection H as H. apply inj_pair2_eq_dec in H; [congruence | exact Nat.eq_dec].
  - rewrite get_wrap, !get_other by congruence.
    repeat match goal with |- _ /\ _ => split end; try (right; reflexivity); try (left; eexists; reflexivity); intros x; split; intros H;
      try discriminate H; try congruence.
    injection H as H. apply inj_pair2_eq_dec in H; [congruence | exact Nat.eq_dec].
Qed.
End Laws.

(** ** Type lists *)
Section Lists.
Variable A : Type.
Variable eq_dec : forall x y : A, {x = y} + {x <> y}.
Notation unique := (unique A eq_dec).
Notation contains := (contains A eq_dec).

Lemma contains_in : forall l t, contains l t = true <-> In t l.
Proof.
  induction l as [| h tl IH]; intros t; cbn [ResultModel.contains In].
  - split; [discriminate | contradiction].
  - destruct (eq_dec h t) as [E | N]; [split; auto |]. rewrite IH. split; [auto | intros [F | F]; [contradiction | exact F]].
Qed.

Lemma unique_in : forall l t, In t (unique l) <-> In t l.
Proof.
  induction l as [| h tl IH]; intros t; [reflexivity |]. cbn [ResultModel.unique]. unfold prepend.
  destruct (contains (unique tl) h) eqn:C.
  - apply contains_in in C. rewrite IH. split; [right; auto |]. intros [-> | H]; [apply IH; exact C | exact H].
  - cbn [In]. rewrite IH. reflexivity.
Qed.

Lemma unique_nodup : forall l, NoDup (unique l).
Proof.
  induction l as [| h tl IH]; [constructor |]. cbn [ResultModel.unique]. unfold prepend. destruct (contains (unique tl) h) eqn:C; [exact IH |].
  constructor; [| exact IH]. intros H. apply contains_in in H. congruence.
Qed.

Lemma unique_order : forall l1 x l2, ~ In x l2 -> exists l, unique (l1 ++ x :: l2) = l ++ x :: unique l2.
Proof.
  induction l1 as [| h tl IH]; intros x l2 N; cbn [app].
  - exists []. cbn [ResultModel.unique]. unfold prepend. destruct (contains (unique l2) x) eqn:C; [| reflexivity].
    apply contains_in in C. apply (proj1 (unique_in _ _)) in C. contradiction.
  - destruct (IH x l2 N) as (l & E). cbn [ResultModel.unique]. unfold prepend. rewrite E.
    destruct (contains (l ++ x :: unique l2) h); [exists l; reflexivity | exists (h :: l); reflexivity].
Qed.

Lemma unique_id : forall l, NoDup l -> unique l = l.
Proof.
  induction 1 as [| h tl N D IH]; [reflexivity |]. cbn [ResultModel.unique]. unfold prepend. rewrite IH.
  destruct (contains tl h) eqn:C; [| reflexivity]. apply contains_in in C. contradiction.
Qed.

Lemma unique_count : forall l t, In t l -> count_occ eq_dec (unique l) t = 1.
Proof.
  intros l t H. apply (proj1 (NoDup_count_occ' eq_dec (unique l)) (unique_nodup l)). apply unique_in. exact H.
Qed.
End Lists.
