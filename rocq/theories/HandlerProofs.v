(** Proofs for properties C132, C133. *)
From Coq Require Import List Arith Bool.
From Verif Require Import Base EvModel HandlerModel.
Import ListNotations.

Lemma attach_debug : forall ps h h', attach_all true ps h = Ok h' ->
  (ps = [] /\ h' = h) \/ (exists n, ps = [Some n] /\ h_evsys h = None /\ h' = mkHandler (Some n)).
Proof.
  intros [|p ps] h h' H; cbn [attach_all] in H; [left; split; congruence|right].
  unfold attach_event_system in H. destruct (h_evsys h) as [m|] eqn:Eh, p as [n|]; cbn [isnull negb sassert bind] in H; try discriminate.
  destruct ps as [|q ps]; cbn [attach_all] in H; [exists n; splits; auto; congruence|].
  unfold attach_event_system in H. destruct q; cbn [h_evsys isnull negb sassert bind] in H; discriminate.
Qed.

Lemma sassert_release c : sassert false c = Ok tt.
Proof. destruct c; reflexivity. Qed.

Lemma last_indep {A} (l : list A) x y : l <> [] -> last l x = last l y.
Proof. induction l as [|a l IH]; [congruence|]. intros _. destruct l as [|b l]; [reflexivity|]. change (last (b :: l) x = last (b :: l) y). apply IH. discriminate. Qed.

Lemma attach_release : forall ps h, attach_all false ps h = Ok (mkHandler (last ps (h_evsys h))).
Proof.
  induction ps as [|p ps IH]; intros h; cbn [attach_all]; [destruct h; reflexivity|].
  unfold attach_event_system. rewrite !sassert_release. cbn [bind]. rewrite IH. cbn [h_evsys]. destruct ps as [|q ps]; [reflexivity|].
  change (last (p :: q :: ps) (h_evsys h)) with (last (q :: ps) (h_evsys h)). now rewrite (last_indep (q :: ps) p (h_evsys h)).
Qed.
