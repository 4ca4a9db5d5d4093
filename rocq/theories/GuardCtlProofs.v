(** A controller behind a band-pass and a moving average *)
From Coq Require Import ZArith Lia Reals Lra Bool List.
From Flocq Require Import Core IEEE754.BinarySingleNaN.
From Verif Require Import Base FloatModel FloatFacts PidModel PidSpec PidProofs GpioModel GpioSpec GpioProofs FilterModel FilterSpec FilterProofs GainSpec SteadySpec SteadyProofs GuardProofs.
Import ListNotations.

Lemma le_le_fin (a z b : float) : is_finite a = true -> is_finite b = true -> f_le a z = true -> f_le z b = true -> is_finite z = true.
Proof. destruct z as [s|[|]| |]; try reflexivity; destruct a as [?|[|]| |], b as [?|[|]| |]; intros A B L R; first [discriminate A|discriminate B|discriminate L|discriminate R]. Qed.
Lemma between_up e (a z b : float) : up_to e a -> up_to e b -> f_le a z = true -> f_le z b = true -> up_to e z.
Proof.
  intros [Fa Va] [Fb Vb] L R. pose proof (le_le_fin _ _ _ Fa Fb L R) as Fz. split; [exact Fz|].
  rewrite le_val in L by assumption. rewrite le_val in R by assumption. revert L R. case Rle_bool_spec; [|discriminate]. intros L _. case Rle_bool_spec; [|discriminate]. intros R _.
  unfold val in *. revert Va Vb. unfold Rabs. repeat destruct Rcase_abs; lra.
Qed.
Theorem guarded_controller dbg c k cfg now0 sp x xs zs ts p0 p : bc_throw c = true -> f_le (f_ofZ 2) k = true ->
  is_nan x = false -> Forall (fun x => f_eq x bp_default = false) (x :: xs) ->
  Forall (fun x : float => is_nan x = true \/ up_to 40 x) (x :: xs) ->
  stack_run dbg (build [of_bandpass (bp_new c); of_ewma (ewma_new k)]) (x :: xs) = Ok zs ->
  modest cfg -> up_to 40 sp -> pid_new dbg now0 cfg = Ok p0 ->
  pid_run dbg (PInitialize :: PSetpoint sp :: map (fun r => PReading (fst r) (snd r)) (combine zs ts)) p0 = Ok p ->
  exists y, pid_response dbg p = Ok y /\ is_finite y = true /\ within (c_lower cfg, c_upper cfg) y.
Proof.
  intros T K N D B R M Sp P0 P. eapply (steady cfg M dbg now0); [exact P0| | |exact P]; [left; reflexivity|].
  apply Forall_cons; [exact Logic.I|]. apply Forall_cons; [exact Sp|]. apply Forall_forall. intros o Io. apply in_map_iff in Io as ([z t] & <- & Iz). cbn [fst snd modest_op].
  apply in_combine_l in Iz. apply In_nth_error in Iz as [i Z].
  assert (B' : Forall (fun x : float => is_nan x = true \/ small x) (x :: xs)).
  { eapply Forall_impl; [|exact B]. intros a [H|[H1 H2]]; [left; exact H|right]. split; [exact H1|].
    eapply Rle_trans; [exact H2|]. apply bpow_le. lia. }
  destruct (proj2 (guarded_thm _ _ _ _ _ _ T K N D B' R) i z Z) as (a & b & Ia & Ib & La & Lb).
  assert (U : forall w : float, In w (firstn (S i) (x :: xs)) -> is_nan w = false -> up_to 40 w).
  { intros w Iw Nw. assert (I : In w (x :: xs)) by (rewrite <- (firstn_skipn (S i) (x :: xs)); apply in_or_app; left; exact Iw).
    destruct (proj1 (Forall_forall _ _) B w I) as [E|E]; [rewrite Nw in E; discriminate E|exact E]. }
  apply (between_up 40 a z b); auto; apply U; auto; [exact (proj1 (le_num _ _ La))|exact (proj2 (le_num _ _ Lb))].
Qed.
