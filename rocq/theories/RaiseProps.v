(** Property C119: exception handlers that raise errors and replace handlers themselves, core/exception.{hpp,cpp}. *)
From Coq Require Import List Arith Bool Lia.
From Verif Require Import RaiseModel RaiseSpec RaiseProofs.
Import ListNotations.

(** C119, the part that holds: with handlers that remove or lower themselves before they raise, and keep themselves while they read their
    members, every error ends: it is handled, whatever the nesting, no destroyed handler is read, and the handler installed afterwards
    still exists. Missing: handlers that stay installed while they raise, see C119_endless, and those that let go of themselves, see
    C119_dropped_refuted. *)
Theorem C119_ends_partial :
  forall rank does returns fuel b e s x s', all_careful rank does -> sound s -> below rank b s -> b < fuel ->
    throw_error does returns fuel e s = (x, s') -> x <> NoFuel /\ x <> Undef /\ sound s' /\ below rank b s'.
Proof.
  intros rank does returns fuel b e s x s' Hc Hs Hb Hf E. destruct (throw_right rank does returns Hc fuel b e s x s' Hf Hs Hb E) as (H1 & H2 & G).
  split; auto. split; auto. split; [apply (g_sound _ _ _ _ G)|apply (g_below _ _ _ _ G)].
Qed.
Print Assumptions C119_ends_partial.
(** Handlers that take themselves away, raise an error, come back and read a member; then a second kind that installs the first before it raises *)
Definition shy (k e : nat) : list act :=
  match k with
  | 0 => [Remove true; Raise (S e); Touch; Restore; Touch]
  | _ => [Install 0 true; Raise (S e); Touch; Restore]
  end.
Example C119_ends_case :
  all_careful (fun k => match k with 0 => 0 | _ => 1 end) shy /\
  throw_error shy true 4 7 (mkSt (Some (0, 1)) [] 1 []) =
    (Done, mkSt (Some (0, 1)) [1] 2 [Called (0, 1) 7; Called (1, 0) 8; Halted; Halted; Halted]) /\
  throw_error shy false 4 7 (mkSt (Some (0, 1)) [] 1 []) = (Stopped, mkSt None [] 2 [Called (0, 1) 7; Called (1, 0) 8; Halted]).
Proof.
  split; [|split; reflexivity]. intros [|k] e; simpl; repeat split; auto; try lia; right; eexists; left; reflexivity.
Qed.
(** On a platform that stops, handlers of ever lower rank are called, then the platform is halted (or a C++ exception leaves). *)
Theorem C119_chain_partial :
  forall rank does fuel b e s x s', all_careful rank does -> sound s -> below rank b s -> b < fuel ->
    throw_error does false fuel e s = (x, s') -> exists t, trace s' = trace s ++ t /\ chain rank b t x.
Proof.
  intros rank does fuel b e s x s' Hc Hs Hb Hf E. destruct (throw_right rank does false Hc fuel b e s x s' Hf Hs Hb E) as (H1 & H2 & _).
  eapply throw_chain; eauto.
Qed.
Print Assumptions C119_chain_partial.
Example C119_chain_case :
  chain (fun k => match k with 0 => 0 | _ => 1 end) 2 [Called (0, 1) 7; Called (1, 0) 8; Halted] Stopped.
Proof. apply ch_call; [simpl; lia|]. apply ch_call; [simpl; lia|]. apply ch_halt. Qed.

(** A handler stays installed while it handles an error: one that raises another calls itself, without end. *)
Theorem C119_endless :
  forall does returns h, (forall e, exists e' l, does (snd h) e = Raise e' :: l) ->
  forall fuel e s, cur s = Some h -> fst (throw_error does returns fuel e s) = NoFuel.
Proof. exact endless. Qed.
Print Assumptions C119_endless.
Theorem C119_endless_refuted :
  exists does s, sound s /\ (forall e, does 0 e = [Raise e]) /\ forall returns fuel e, fst (throw_error does returns fuel e s) = NoFuel.
Proof.
  exists (fun _ e => [Raise e]), (mkSt (Some (0, 0)) [] 1 []). split; [split; [intros x []|split; [simpl; lia|intros []]]|]. split; auto.
  intros returns fuel e. apply (endless _ _ (0, 0)); auto. intros e'. do 2 eexists. reflexivity.
Qed.
(** A handler that installs another and lets go of what it gets back has destroyed itself: reading a member then is undefined. *)
Theorem C119_dropped :
  forall does returns fuel k k' e l x s, does k e = Install k' false :: Touch :: l -> cur s = Some (x, k) ->
  fst (throw_error does returns (S fuel) e s) = Undef.
Proof.
  intros does returns fuel k k' e l x s Hd Hc. cbn [throw_error]. rewrite Hc. cbn [snd fst]. rewrite Hd. cbn. rewrite Hc. cbn. rewrite Nat.eqb_refl. reflexivity.
Qed.
Print Assumptions C119_dropped.
Theorem C119_dropped_refuted :
  exists does s, sound s /\ does 0 5 = [Install 1 false; Touch] /\ forall returns, fst (throw_error does returns 9 5 s) = Undef.
Proof.
  exists (fun _ _ => [Install 1 false; Touch]), (mkSt (Some (0, 0)) [] 1 []). split; [split; [intros x []|split; [simpl; lia|intros []]]|]. split; auto.
Qed.
(** Where the platform stops no error returns to where it was raised, whatever the handlers do. *)
Theorem C119_stops : forall does fuel e s, fst (throw_error does false fuel e s) <> Done.
Proof.
  intros does fuel e s. destruct fuel as [|fuel]; cbn [throw_error]; [discriminate|]. destruct (cur s) as [h|]; [|discriminate].
  destruct (body_run _ _ _ _ _) as [[] s1]; discriminate.
Qed.
Print Assumptions C119_stops.
Example C119_stops_case : fst (throw_error (fun _ _ => []) false 1 3 (mkSt (Some (0, 0)) [] 1 [])) = Stopped. Proof. reflexivity. Qed.
