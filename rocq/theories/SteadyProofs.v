(** Lemmas for property C142. *)
From Coq Require Import ZArith Lia Reals Lra Bool List.
From Flocq Require Import Core IEEE754.BinarySingleNaN.
From Verif Require Import Base KTimeModel KTimeProofs FloatModel FloatFacts PidModel PidSpec PidProofs GainSpec SteadySpec.
Import ListNotations.
Open Scope R_scope.

(** ** Sizes through single precision *)
Lemma up_le a b x : (a <= b)%Z -> up_to a x -> up_to b x.
Proof. intros L [F B]. split; [exact F|]. eapply Rle_trans; [exact B|apply bpow_le, L]. Qed.
Lemma up_mul a b e x y : (-149 <= e <= 127)%Z -> (a + b <= e)%Z -> up_to a x -> up_to b y -> up_to e (f_mul x y).
Proof.
  intros He L [Fx Bx] [Fy By]. assert (B : Rabs (val x * val y) <= bpow radix2 e).
  { rewrite Rabs_mult. apply Rle_trans with (bpow radix2 (a + b)); [|apply bpow_le, L]. rewrite bpow_plus. apply Rmult_le_compat; auto; apply Rabs_pos. }
  destruct (mul_val x y Fx Fy) as [V F]; [apply (rnd_small _ e); [lia|exact B]|]. split; [exact F|]. change (Rabs (val (f_mul x y)) <= bpow radix2 e). rewrite V. apply rnd_bound; [lia|exact B].
Qed.
Lemma up_sum a e u v : (a < e)%Z -> Rabs u <= bpow radix2 a -> Rabs v <= bpow radix2 a -> Rabs (u + v) <= bpow radix2 e.
Proof.
  intros L Hu Hv. eapply Rle_trans; [apply Rabs_triang|]. apply Rle_trans with (bpow radix2 (1 + a)); [|apply bpow_le; lia]. rewrite bpow_plus. change (bpow radix2 1) with 2. lra.
Qed.
Lemma up_add a e x y : (-149 <= e <= 127)%Z -> (a < e)%Z -> up_to a x -> up_to a y -> up_to e (f_add x y).
Proof.
  intros He L [Fx Bx] [Fy By]. pose proof (up_sum a e _ _ L Bx By) as B.
  destruct (add_val x y Fx Fy) as [V F]; [apply (rnd_small _ e); [lia|exact B]|]. split; [exact F|]. change (Rabs (val (f_add x y)) <= bpow radix2 e). rewrite V. apply rnd_bound; [lia|exact B].
Qed.
Lemma up_sub a e x y : (-149 <= e <= 127)%Z -> (a < e)%Z -> up_to a x -> up_to a y -> up_to e (f_sub x y).
Proof.
  intros He L [Fx Bx] [Fy By]. assert (B : Rabs (val x - val y) <= bpow radix2 e) by (apply (up_sum a e _ (- val y) L Bx); rewrite Rabs_Ropp; exact By).
  destruct (sub_val x y Fx Fy) as [V F]; [apply (rnd_small _ e); [lia|exact B]|]. split; [exact F|]. change (Rabs (val (f_sub x y)) <= bpow radix2 e). rewrite V. apply rnd_bound; [lia|exact B].
Qed.
Lemma up_div a b e x y : (-149 <= e <= 127)%Z -> (a - b <= e)%Z -> up_to a x -> finite y = true -> bpow radix2 b <= val y -> up_to e (f_div x y).
Proof.
  intros He L [Fx Bx] Fy By. pose proof (bpow_gt_0 radix2 b) as P. assert (B : Rabs (val x / val y) <= bpow radix2 e).
  { unfold Rdiv. rewrite Rabs_mult, (Rabs_pos_eq (/ val y)) by (left; apply Rinv_0_lt_compat; lra). apply Rle_trans with (bpow radix2 (a + - b)); [|apply bpow_le; lia].
    rewrite bpow_plus, bpow_opp. apply Rmult_le_compat; [apply Rabs_pos|left; apply Rinv_0_lt_compat; lra|exact Bx|apply Rinv_le; lra]. }
  destruct (div_val x y Fx Fy ltac:(lra)) as [V F]; [apply (rnd_small _ e); [lia|exact B]|]. split; [exact F|]. change (Rabs (val (f_div x y)) <= bpow radix2 e). rewrite V. apply rnd_bound; [lia|exact B].
Qed.
Lemma up_clamp e lo hi x : finite x = true -> up_to e lo -> up_to e hi -> up_to e (clamp lo hi x).
Proof.
  intros Fx Hl Hh. unfold clamp. destruct (f_gt x hi) eqn:G; [exact Hh|]. destruct (f_lt x lo) eqn:L; [exact Hl|]. destruct Hl as [Fl Bl], Hh as [Fh Bh]. split; [exact Fx|].
  change (f_lt hi x = false) in G. rewrite lt_val in G, L by assumption. revert G L. case Rlt_bool_spec; [discriminate|]. intros G _. case Rlt_bool_spec; [discriminate|]. intros L _. unfold val in *.
  apply Rabs_le_inv in Bl, Bh. apply Rabs_le. lra.
Qed.
Lemma up_Z z e : (Z.abs z <= 2 ^ 24)%Z -> (Z.abs z <= 2 ^ e)%Z -> (0 <= e)%Z -> up_to e (f_ofZ z).
Proof.
  intros H He H0. destruct (ofZ_exact z H) as [V F]. split; [exact F|]. change (Rabs (val (f_ofZ z)) <= bpow radix2 e). rewrite V, <- abs_IZR, <- IZR_Zpower by exact H0. apply IZR_le. exact He.
Qed.
Lemma up_zero e : up_to e f_zero. Proof. split; [reflexivity|]. cbn. rewrite Rabs_R0. apply bpow_ge_0. Qed.

(** ** The controller *)
Record sized (cfg : pid_config) (p : pid) : Prop := {
  z_cfg : p_cfg p = cfg;
  z_gains : up_to 30 (kp (p_backend p)) /\ up_to 30 (kd (p_backend p));
  z_sum : (sampling (p_backend p) = 100%Z /\ up_to 30 (ki (p_backend p))) \/ (sampling (p_backend p) = c_interval cfg /\ up_to 60 (ki (p_backend p)));
  z_limits : up_to 40 (lower (p_backend p)) /\ up_to 40 (upper (p_backend p));
  z_state : up_to 40 (cumulative (p_backend p)) /\ up_to 40 (last_reading (p_backend p));
  z_vars : up_to 40 (input (p_vars p)) /\ up_to 40 (output (p_vars p)) /\ up_to 40 (setpoint (p_vars p)) }.
Section Steady.
Variable cfg : pid_config.
Hypothesis M : modest cfg.
Lemma z_ki p : sized cfg p -> up_to 60 (ki (p_backend p)).
Proof. intros Z. destruct (z_sum _ _ Z) as [[_ H]|[_ H]]; [apply (up_le 30); [lia|exact H]|exact H]. Qed.
Lemma sized_reading x now p : up_to 40 x -> sized cfg p -> sized cfg (pid_new_reading x now p).
Proof.
  intros Ux Z. pose proof (z_ki p Z) as Ui. destruct Z as [Zc [Zp Zd] Zs [Zl Zu] [Zm Zr] (Zi & Zo & Zt)]. unfold pid_new_reading, update. destruct (kge _ _ _ _); cbn [p_cfg p_backend p_vars input output setpoint].
  2: { constructor; cbn [p_cfg p_backend p_vars input output setpoint]; auto. }
  set (c := p_backend p) in *. set (s := setpoint (p_vars p)) in *.
  assert (Ue : up_to 41 (f_sub s x)) by (apply (up_sub 40); auto; lia). assert (Ud : up_to 41 (f_sub x (last_reading c))) by (apply (up_sub 40); auto; lia).
  assert (U1 : up_to 102 (f_add (cumulative c) (f_mul (ki c) (f_sub s x)))) by (apply (up_add 101); [lia|lia|apply (up_le 40); [lia|auto]|apply (up_mul 60 41); auto; lia]).
  assert (U2 : up_to 103 (match prop c with OnMeasurement => f_sub (f_add (cumulative c) (f_mul (ki c) (f_sub s x))) (f_mul (kp c) (f_sub x (last_reading c))) | OnError => f_add (cumulative c) (f_mul (ki c) (f_sub s x)) end)).
  { destruct (prop c); first [apply (up_le 102); [lia|exact U1]|apply (up_sub 102); [lia|lia|exact U1|]; apply (up_le 71); [lia|]; apply (up_mul 30 41); auto; lia]. }
  revert U2. match goal with |- up_to 103 ?a -> _ => generalize a end. intros cum U2.
  assert (U3 : up_to 40 (clamp (lower c) (upper c) cum)) by (apply up_clamp; [apply U2|auto|auto]).
  assert (U4 : up_to 73 (f_sub (clamp (lower c) (upper c) cum) (f_mul (kd c) (f_sub x (last_reading c))))) by (apply (up_sub 72); [lia|lia|apply (up_le 40); [lia|exact U3]|apply (up_mul 30 41 72); auto; lia]).
  assert (U5 : up_to 73 (match prop c with OnError => f_mul (kp c) (f_sub s x) | OnMeasurement => f_zero end)) by (destruct (prop c); first [apply up_zero|apply (up_mul 30 41); auto; lia]).
  constructor; cbn [p_cfg p_backend p_vars input output setpoint kp ki kd sampling lower upper cumulative last_reading]; auto.
  split; [exact Ux|]. split; [|exact Zt]. apply up_clamp; auto. apply (up_add 73 74); auto; lia.
Qed.
Lemma sized_tunings dbg t pr p p' : modest_tunings t -> sized cfg p -> pid_set_tunings dbg t pr p = Ok p' -> sized cfg p'.
Proof.
  intros (Tp & Ti & Td) Z. pose proof (modest_interval cfg M) as Hi. destruct Z as [Zc [Zp Zd] Zs [Zl Zu] [Zm Zr] (Zi & Zo & Zt)]. unfold pid_set_tunings. destruct (set_tunings _ _ _ _ _ _) as [c| | | |] eqn:E; try discriminate. cbn [bind]. intros H. apply ok_inj in H. subst p'.
  unfold set_tunings in E. apply assert_ok in E. apply assert_ok in E. cbv zeta in E. apply ok_inj in E.
  assert (Hs : (100 <= sampling (p_backend p) <= 2 ^ 24)%Z) by (destruct Zs as [[-> _]|[-> _]]; lia).
  set (sec := f_div (f_ofZ (sampling (p_backend p))) (f_ofZ 1000)) in *.
  assert (Us : up_to 24 sec /\ bpow radix2 (-4) <= val sec).
  { destruct (ofZ_exact (sampling (p_backend p))) as [Es Fs]; [lia|]. destruct (ofZ_exact 1000) as [Ek Fk]; [lia|].
    assert (Ub : up_to 24 sec). { apply (up_div 24 0); [lia|lia|apply up_Z; lia|exact Fk|]. rewrite Ek. cbn. lra. }
    split; [exact Ub|]. assert (B : Rabs (val (f_ofZ (sampling (p_backend p))) / val (f_ofZ 1000)) <= bpow radix2 24).
    { rewrite Es, Ek. assert (0 <= IZR (sampling (p_backend p))) by (apply IZR_le; lia). assert (IZR (sampling (p_backend p)) <= bpow radix2 24) by (change (bpow radix2 24) with (IZR (2 ^ 24)); apply IZR_le; lia). rewrite Rabs_pos_eq by lra. lra. }
    destruct (div_val _ _ Fs Fk ltac:(rewrite Ek; lra)) as [V _]; [apply (rnd_small _ 24); [lia|exact B]|]. unfold sec. rewrite V, Es, Ek. rewrite <- (rnd_id (bpow radix2 (-4))) by (apply fmt_bpow; lia). apply rnd_le.
    assert (100 <= IZR (sampling (p_backend p))) by (apply IZR_le; lia). change (bpow radix2 (-4)) with (/ 16). lra. }
  destruct Us as [Us Ls].
  assert (N : forall a e x, (a < e)%Z -> (-149 <= e <= 127)%Z -> up_to a x -> up_to e (match dir (p_backend p) with Reverse => negated x | Forward => x end)).
  { intros a e x L He U. destruct (dir (p_backend p)); first [apply (up_le a); [lia|exact U]|unfold negated; apply (up_sub a); [lia|lia| |exact U]; first [apply up_zero|apply up_Z; lia]]. }
  subst c. constructor; cbn [p_cfg p_backend p_vars kp ki kd sampling lower upper cumulative last_reading]; auto.
  - split; [apply (N 20%Z); auto; lia|]. apply (N 24%Z); [lia|lia|]. apply (up_div 20 (-4)); [lia|lia|exact Td|apply Us|exact Ls].
  - destruct Zs as [[Es _]|[Es _]].
    + left. split; [exact Es|]. apply (N 29%Z); [lia|lia|]. apply (up_mul 20 0); [lia|lia|exact Ti|]. unfold sec. rewrite Es. destruct (ofZ_exact 1000) as [Ek Fk]; [lia|]. apply (up_div 7 7); [lia|lia|apply up_Z; lia|exact Fk|]. rewrite Ek. cbn. lra.
    + right. split; [exact Es|]. apply (N 59%Z); [lia|lia|]. apply (up_mul 20 24); [lia|lia|exact Ti|exact Us].
Qed.
Lemma sized_init p : sized cfg p -> sized cfg (pid_initialize p).
Proof.
  intros Z. pose proof (modest_interval cfg M) as Hi. destruct (modest_limits cfg M) as (Ml & Mu & _). destruct Z as [Zc [Zp Zd] Zs [Zl Zu] [Zm Zr] (Zi & Zo & Zt)]. unfold pid_initialize. rewrite Zc.
  assert (Q : exists v b, set_output_limits (c_lower cfg) (c_upper cfg) (p_vars p) (p_backend p) = (v, b) /\ up_to 40 (input v) /\ up_to 40 (output v) /\ up_to 40 (setpoint v) /\
    up_to 40 (lower b) /\ up_to 40 (upper b) /\ up_to 40 (cumulative b) /\ up_to 40 (last_reading b) /\ kp b = kp (p_backend p) /\ ki b = ki (p_backend p) /\ kd b = kd (p_backend p) /\ sampling b = sampling (p_backend p)).
  { unfold set_output_limits. destruct (f_ge _ _); do 2 eexists; (split; [reflexivity|]); cbn [input output setpoint lower upper cumulative last_reading kp ki kd sampling]; repeat (split; [first [assumption|apply up_clamp; [apply Zo|assumption|assumption]|apply up_clamp; [apply Zm|assumption|assumption]|reflexivity]|]); reflexivity. }
  destruct Q as (v & b & -> & Qi & Qo & Qt & Ql & Qu & Qm & Qr & Ep & Ei & Ed & Es).
  unfold set_sampling_time. assert (K : kgt MS MS (c_interval cfg) 0 = true) by (unfold kgt; rewrite from_other_same, near24_0; apply Z.ltb_lt; lia). rewrite K. cbv zeta.
  assert (R : (1 <= Z.quot (c_interval cfg) (sampling b) <= 2 ^ 24)%Z /\ up_to 60 (f_mul (ki b) (f_ofZ (Z.quot (c_interval cfg) (sampling b))))).
  { rewrite Es, Ei. destruct Zs as [[-> U]|[-> U]].
    - assert (B : (1 <= Z.quot (c_interval cfg) 100 <= 2 ^ 24)%Z) by (rewrite Z.quot_div_nonneg by lia; split; [apply Z.div_le_lower_bound; lia|apply Z.div_le_upper_bound; lia]).
      split; [exact B|]. apply (up_mul 30 24); [lia|lia|exact U|apply up_Z; lia].
    - rewrite Z.quot_same by lia. split; [lia|]. apply (up_mul 60 0); [lia|lia|exact U|apply up_Z; lia]. }
  destruct R as [R Ui]. destruct (ofZ_exact (Z.quot (c_interval cfg) (sampling b))) as [Er Fr]; [lia|].
  constructor; cbn [p_cfg p_backend p_vars ctl_initialize kp ki kd sampling lower upper cumulative last_reading]; auto.
  - rewrite Ep, Ed. split; [exact Zp|]. apply (up_div 30 0); [lia|lia|exact Zd|exact Fr|]. rewrite Er. cbn. apply (IZR_le 1). lia.
  - split; [|exact Qi]. apply up_clamp; [apply Qo|exact Ql|exact Qu].
Qed.
Lemma sized_new dbg now p : pid_new dbg now cfg = Ok p -> sized cfg p.
Proof.
  intros H. pose proof (modest_interval cfg M) as Hi. destruct (modest_gains cfg M) as (Tp & Ti & Td). unfold pid_new in H. destruct (ctl_new _ _ _ _ _ _ _) as [b| | | |] eqn:E; try discriminate. cbn [bind] in H. apply assert_ok in H. apply ok_inj in H. subst p.
  assert (Z0 : forall b0, sampling b0 = 100%Z -> up_to 30 (kp b0) -> up_to 30 (ki b0) -> up_to 30 (kd b0) -> up_to 40 (lower b0) -> up_to 40 (upper b0) -> up_to 40 (cumulative b0) -> up_to 40 (last_reading b0) -> sized cfg (mkPid cfg b0 (mkCells f_zero f_zero f_zero))).
  { intros b0 E0 A B D Lo Up Cu La. constructor; cbn [p_cfg p_backend p_vars input output setpoint]; auto. split; [apply up_zero|split; apply up_zero]. }
  assert (S0 : sized cfg (mkPid cfg (set_direction (c_dir cfg) ctl0) (mkCells f_zero f_zero f_zero))).
  { assert (Ec : forall d', sampling (set_direction d' ctl0) = 100%Z /\ up_to 30 (kp (set_direction d' ctl0)) /\ up_to 30 (ki (set_direction d' ctl0)) /\ up_to 30 (kd (set_direction d' ctl0)) /\ lower (set_direction d' ctl0) = f_zero /\ upper (set_direction d' ctl0) = f_ofZ 255 /\ cumulative (set_direction d' ctl0) = f_zero /\ last_reading (set_direction d' ctl0) = f_zero).
    { intros d'. unfold set_direction. destruct d'; cbn; repeat (split; [first [reflexivity|apply up_zero|apply (up_sub 0 30); [lia|lia| |]; first [apply up_zero|apply up_Z; lia]]|]); reflexivity. }
    destruct (Ec (c_dir cfg)) as (E1 & E2 & E3 & E4 & E5 & E6 & E7 & E8). apply Z0; auto; rewrite ?E5, ?E6, ?E7, ?E8; first [apply up_zero|apply up_Z; lia]. }
  unfold ctl_new in E. destruct (set_tunings dbg (tKp (c_tunings cfg)) (tKi (c_tunings cfg)) (tKd (c_tunings cfg)) OnMeasurement (set_direction (c_dir cfg) ctl0)) as [c1| | | |] eqn:E1; try discriminate. cbn [bind] in E. apply ok_inj in E. subst b.
  assert (S1 : sized cfg (mkPid cfg c1 (mkCells f_zero f_zero f_zero))).
  { apply (sized_tunings dbg (c_tunings cfg) OnMeasurement _ _ (modest_gains cfg M) S0). unfold pid_set_tunings. cbn [p_backend p_cfg p_vars]. rewrite E1. reflexivity. }
  destruct S1 as [Zc Zg Zs Zl Zm Zv]. constructor; auto.
Qed.
Lemma sized_run dbg os : Forall modest_op os -> forall p p', sized cfg p -> pid_run dbg os p = Ok p' -> sized cfg p'.
Proof.
  induction os as [|o os IH]; intros F p p' Z H; cbn [pid_run] in H; [apply ok_inj in H; subst; exact Z|].
  inversion F as [|? ? Fo Fos]; subst. destruct (pid_do dbg o p) as [p1| | | |] eqn:E; try discriminate. cbn [bind] in H. apply (IH Fos p1 p'); [|exact H].
  destruct o; cbn [pid_do] in E; cbn [modest_op] in Fo.
  - apply ok_inj in E. subst p1. apply sized_init, Z.
  - apply ok_inj in E. subst p1. destruct Z as [Zc Zg Zs Zl Zm (Zi & Zo & Zt)]. constructor; auto.
  - apply (sized_tunings dbg t p0 p); assumption.
  - apply ok_inj in E. subst p1. apply sized_reading; assumption.
Qed.
Lemma steady dbg now0 os p0 p : pid_new dbg now0 cfg = Ok p0 -> In PInitialize os -> Forall modest_op os -> pid_run dbg os p0 = Ok p ->
  exists x, pid_response dbg p = Ok x /\ is_finite x = true /\ within (c_lower cfg, c_upper cfg) x.
Proof.
  intros H0 Hi F H. pose proof (sized_run dbg os F p0 p (sized_new dbg now0 p0 H0) H) as Z. destruct (z_vars _ _ Z) as (_ & [Fo _] & _).
  assert (N : is_nan (output (p_vars p)) = false) by (destruct (output (p_vars p)); (reflexivity || discriminate Fo)).
  assert (R : pid_response dbg p = Ok (output (p_vars p))) by (unfold pid_response; change (f_isnan (output (p_vars p))) with (is_nan (output (p_vars p))); rewrite N; destruct dbg; reflexivity).
  exists (output (p_vars p)). split; [exact R|]. split; [exact Fo|]. apply (pid_within dbg now0 cfg p0 os p H0 (proj2 (proj2 (modest_limits cfg M))) Hi H _ R N).
Qed.
End Steady.

(** ** What is not a number stays so *)
Lemma nan_is (x : float) : is_nan x = true -> x = B754_nan. Proof. destruct x; (reflexivity || discriminate). Qed.
Lemma nan_add (x y : float) : is_nan x = true \/ is_nan y = true -> is_nan (f_add x y) = true.
Proof. intros [H|H]; apply nan_is in H; subst; [reflexivity|destruct x; reflexivity]. Qed.
Lemma nan_sub (x y : float) : is_nan x = true \/ is_nan y = true -> is_nan (f_sub x y) = true.
Proof. intros [H|H]; apply nan_is in H; subst; [reflexivity|destruct x; reflexivity]. Qed.
Lemma nan_mul (x y : float) : is_nan x = true \/ is_nan y = true -> is_nan (f_mul x y) = true.
Proof. intros [H|H]; apply nan_is in H; subst; [reflexivity|destruct x; reflexivity]. Qed.
Lemma nan_clamp (lo hi x : float) : is_nan x = true -> is_nan (clamp lo hi x) = true.
Proof. intros H. apply nan_is in H. subst x. unfold clamp. assert (f_gt B754_nan hi = false) as -> by (destruct hi as [?|[|]| |[|] ? ? ?]; reflexivity). assert (f_lt B754_nan lo = false) as -> by reflexivity. reflexivity. Qed.
Definition lost (p : pid) : Prop := is_nan (cumulative (p_backend p)) = true /\ is_nan (output (p_vars p)) = true.
Lemma lost_update x now p : taken x now p -> is_nan (cumulative (p_backend p)) = true \/ is_nan (f_mul (ki (p_backend p)) (f_sub (setpoint (p_vars p)) x)) = true -> lost (pid_new_reading x now p).
Proof.
  unfold taken, pid_new_reading, update. destruct (kge _ _ _ _); [|discriminate]. intros _ N. cbn [input output setpoint].
  set (cum := match prop (p_backend p) with OnMeasurement => _ | OnError => _ end).
  assert (Nc : is_nan cum = true) by (unfold cum; destruct (prop (p_backend p)); first [apply nan_add; exact N|apply nan_sub; left; apply nan_add; exact N]).
  split; cbn [p_backend p_vars cumulative output]; [apply nan_clamp, Nc|]. apply nan_clamp, nan_add. right. apply nan_sub. left. apply nan_clamp, Nc.
Qed.
Lemma lost_do dbg o p p' : lost p -> pid_do dbg o p = Ok p' -> lost p'.
Proof.
  intros L E. destruct o; cbn [pid_do] in E.
  - apply ok_inj in E. subst p'. destruct L as [Lc Lo]. unfold pid_initialize, set_output_limits. destruct (f_ge _ _); unfold set_sampling_time; destruct (kgt _ _ _ _); split; cbn [p_backend p_vars ctl_initialize cumulative output]; repeat apply nan_clamp; assumption.
  - apply ok_inj in E. subst p'. exact L.
  - unfold pid_set_tunings in E. destruct (set_tunings _ _ _ _ _ _) as [c| | | |] eqn:Et; try discriminate E. cbn [bind] in E. apply ok_inj in E. subst p'.
    unfold set_tunings in Et. apply assert_ok in Et. apply assert_ok in Et. cbv zeta in Et. apply ok_inj in Et. subst c. exact L.
  - apply ok_inj in E. subst p'. unfold taken in *. destruct (fst (fst (update now (mkCells x (output (p_vars p)) (setpoint (p_vars p))) (p_backend p)))) eqn:T.
    + apply lost_update; [exact T|left; apply L].
    + unfold pid_new_reading, update in *. destruct (kge _ _ _ _); [discriminate|]. exact L.
Qed.
Lemma lost_run dbg os : forall p p', lost p -> pid_run dbg os p = Ok p' -> lost p'.
Proof.
  induction os as [|o os IH]; intros p p' L E; cbn [pid_run] in E; [apply ok_inj in E; subst; exact L|].
  destruct (pid_do dbg o p) as [p1| | | |] eqn:E1; try discriminate E. cbn [bind] in E. apply (IH p1); [apply (lost_do dbg o p); assumption|exact E].
Qed.
Lemma lost_response p : lost p -> pid_response true p = Halt /\ exists x, pid_response false p = Ok x /\ is_nan x = true.
Proof. intros [_ N]. unfold pid_response. change (f_isnan (output (p_vars p))) with (is_nan (output (p_vars p))). rewrite N. split; [reflexivity|]. eexists. split; [reflexivity|exact N]. Qed.
Lemma zero_inf (k s x : float) : is_finite s = true -> B2R k = 0 -> is_finite k = true -> (x = B754_infinity true \/ x = B754_infinity false) -> is_nan (f_mul k (f_sub s x)) = true.
Proof.
  intros Fs Ek Fk Hx. assert (exists b, f_sub s x = B754_infinity b) as [b ->] by (destruct s; try discriminate Fs; destruct Hx as [-> | ->]; eexists; reflexivity).
  destruct k as [sg|sg| |sg m e B]; try discriminate Fk; [reflexivity|]. exfalso. apply (Rlt_irrefl 0). cbn in Ek. apply eq_0_F2R in Ek. cbn in Ek. destruct sg; discriminate Ek.
Qed.
