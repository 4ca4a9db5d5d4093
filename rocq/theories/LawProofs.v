(** Lemmas about the control law of the PID controller. *)
From Coq Require Import ZArith Lia Bool List Reals Lra.
From Flocq Require Import Core IEEE754.BinarySingleNaN.
From Verif Require Import Base KTimeModel FloatModel FloatFacts PidModel PidSpec PidProofs LawSpec.
Import ListNotations.
Open Scope Z_scope.

(** ** The law *)
Definition gains_of (c : ctl) : gains := mkGains (kp c) (ki c) (kd c).
Definition mem_of (c : ctl) : memory := (cumulative c, last_reading c, (lower c, upper c)).
Lemma update_law now v c v' c' : update now v c = (true, v', c') ->
  output v' = response (gains_of c) (prop c) (mem_of c) (setpoint v) (input v) /\
  mem_of c' = happens (gains_of c) (prop c) (mem_of c) (Sampled (setpoint v) (input v)) /\ gains_of c' = gains_of c /\ prop c' = prop c.
Proof. unfold update. destruct (kge _ _ _ _); [|discriminate]. intros E. apply pair_equal_spec in E. destruct E as [E <-]. apply pair_equal_spec in E. destruct E as [_ <-]. split; [reflexivity|]. split; [reflexivity|]. split; reflexivity. Qed.
Lemma call_law dbg o v c v' c' : plain o -> ctl_call dbg o (v, c) = Ok (v', c') ->
  gains_of c' = gains_of c /\ prop c' = prop c /\
  mem_of c' = fold_left (happens (gains_of c) (prop c)) (match o with
    | Initialize => [Took_over (output v) (input v)]
    | Update now => if fst (fst (update now v c)) then [Sampled (setpoint v) (input v)] else []
    | Limits a b => [Limited a b] | _ => [] end) (mem_of c).
Proof.
  intros P E. destruct o; cbn [plain ctl_call] in *; try contradiction.
  1-4: apply ok_pair in E; destruct E as [<- <-]; split; [reflexivity|]; split; reflexivity.
  - destruct (update now v c) as [[b v1] c1] eqn:U. cbn [fst]. apply ok_pair in E. destruct E as [<- <-]. destruct b.
    + destruct (update_law _ _ _ _ _ U) as (_ & M & G & Q). cbn [fold_left]. auto.
    + destruct (update_only_input _ _ _ _ _ _ U) as (_ & _ & K). destruct (K eq_refl) as (_ & ->). auto.
  - unfold set_output_limits in E. apply ok_inj in E. cbn [fold_left]. unfold happens, mem_of at 2. change (Bleb mx mn) with (f_ge mn mx).
    destruct (f_ge mn mx); apply pair_equal_spec in E; destruct E as [<- <-]; split; [reflexivity|split; reflexivity|reflexivity|split; reflexivity].
Qed.
Lemma observe_law dbg os : forall v c hs v' c', Forall plain os -> observe dbg os (v, c) = Ok (hs, (v', c')) ->
  gains_of c' = gains_of c /\ prop c' = prop c /\ mem_of c' = fold_left (happens (gains_of c) (prop c)) hs (mem_of c).
Proof.
  induction os as [|o os IH]; intros v c hs v' c' P E; cbn [observe] in E.
  - apply ok_pair in E. destruct E as [<- E]. apply pair_equal_spec in E. destruct E as [<- <-]. auto.
  - inversion P; subst. cbv zeta in E. cbn [fst snd] in E. destruct (ctl_call dbg o (v, c)) as [[v1 c1]| | | |] eqn:C; try discriminate. cbn [bind] in E.
    destruct (observe dbg os (v1, c1)) as [[hs1 [v2 c2]]| | | |] eqn:O; try discriminate. cbn [bind] in E. apply ok_pair in E. destruct E as (<- & E). apply pair_equal_spec in E. destruct E as [<- <-].
    destruct (IH _ _ _ _ _ H2 O) as (A & B & D). destruct (call_law _ _ _ _ _ _ H1 C) as (A' & B' & D').
    rewrite A, B, D, A', B', D', <- fold_left_app. auto.
Qed.
Lemma call_dir dbg o v c v' c' : ctl_call dbg o (v, c) = Ok (v', c') -> dir c' = match o with Direction d => d | _ => dir c end.
Proof.
  intros E. destruct o; cbn [ctl_call] in E.
  1-4: apply ok_pair in E; destruct E as [<- <-]; reflexivity.
  - destruct (update now v c) as [[b v1] c1] eqn:U. apply ok_pair in E. destruct E as [<- <-]. revert U. unfold update. destruct (kge _ _ _ _); intros U; apply pair_equal_spec in U; destruct U as [_ <-]; reflexivity.
  - unfold set_output_limits in E. apply ok_inj in E. destruct (f_ge mn mx); apply pair_equal_spec in E; destruct E as [_ <-]; reflexivity.
  - destruct (set_tunings _ _ _ _ _ _) as [c1| | | |] eqn:S1; try discriminate. cbn [bind] in E. apply ok_pair in E. destruct E as [<- <-]. unfold set_tunings in S1. apply assert_ok, assert_ok, ok_inj in S1. subst c1. reflexivity.
  - apply ok_pair in E. destruct E as [<- <-]. unfold set_direction. destruct (same_direction d (dir c)) eqn:S1; [|reflexivity]. destruct d, (dir c); auto; discriminate.
  - apply ok_pair in E. destruct E as [<- <-]. unfold set_sampling_time. destruct (kgt _ _ _ _); reflexivity.
Qed.
Lemma calls_dir dbg os : forall v c v' c', ctl_calls dbg os (v, c) = Ok (v', c') -> dir c' = direction_in_force (dir c) os.
Proof.
  induction os as [|o os IH]; intros v c v' c' E; cbn [ctl_calls] in E; [apply ok_pair in E; destruct E as [<- <-]; reflexivity|].
  destruct (ctl_call dbg o (v, c)) as [[v1 c1]| | | |] eqn:C; try discriminate. cbn [bind] in E. rewrite (IH _ _ _ _ E), (call_dir _ _ _ _ _ _ C). reflexivity.
Qed.
Lemma new_dir dbg now a b k p d c : ctl_new dbg now a b k p d = Ok c -> dir c = d.
Proof.
  unfold ctl_new. destruct (set_tunings _ _ _ _ _ _) as [c1| | | |] eqn:E; try discriminate. cbn [bind]. intros H. apply ok_inj in H. subst c. cbn [dir].
  unfold set_tunings in E. apply assert_ok, assert_ok, ok_inj in E. subst c1. cbn [dir]. unfold set_direction, ctl0. cbn [dir]. destruct d; reflexivity.
Qed.
Lemma tunings_gains dbg Kp Ki Kd p c c' : set_tunings dbg Kp Ki Kd p c = Ok c' ->
  gains_of c' = per_sample (dir c) (sampling c) Kp Ki Kd /\ prop c' = p /\ mem_of c' = mem_of c.
Proof.
  unfold set_tunings. intros E. apply assert_ok, assert_ok, ok_inj in E. subst c'. unfold gains_of, per_sample, signed. cbn [kp ki kd prop]. destruct (dir c); (split; [reflexivity|split; reflexivity]).
Qed.
Lemma law_right dbg now0 a b k p0 d c0 v0 pre Kp Ki Kd p v1 c1 :
  ctl_new dbg now0 a b k p0 d = Ok c0 -> numeric_limits pre -> ctl_calls dbg (pre ++ [Tunings Kp Ki Kd p]) (v0, c0) = Ok (v1, c1) ->
  let g := per_sample (direction_in_force d pre) (sampling_in_force pre) Kp Ki Kd in
  exists i x, forall os hs v2 c2 now v3 c3, Forall plain os -> observe dbg os (v1, c1) = Ok (hs, (v2, c2)) -> update now v2 c2 = (true, v3, c3) ->
    output v3 = response g p (fold_left (happens g p) hs (i, x, in_force pre)) (setpoint v2) (input v2).
Proof.
  intros N L E. cbv zeta. rewrite calls_app in E. destruct (ctl_calls dbg pre (v0, c0)) as [[v c]| | | |] eqn:Ep; try discriminate. cbn [bind ctl_calls ctl_call] in E.
  destruct (set_tunings dbg Kp Ki Kd p c) as [c'| | | |] eqn:T; try discriminate. cbn [bind] in E. apply ok_pair in E. destruct E as [<- <-].
  destruct (tunings_gains _ _ _ _ _ _ _ T) as (G & P & M). exists (cumulative c'), (last_reading c').
  destruct (ctl_new_limits _ _ _ _ _ _ _ _ N) as (L0 & S0).
  pose proof (calls_limits _ _ _ _ _ _ Ep L) as Lc. rewrite L0 in Lc. pose proof (calls_sampling _ _ _ _ _ _ Ep) as Sc. rewrite S0 in Sc. fold (sampling_in_force pre) in Sc.
  pose proof (calls_dir _ _ _ _ _ _ Ep) as Dc. rewrite (new_dir _ _ _ _ _ _ _ _ N) in Dc. rewrite Dc, Sc in G.
  intros os hs v2 c2 now v3 c3 Pl O U. destruct (observe_law _ _ _ _ _ _ _ Pl O) as (G2 & P2 & M2). destruct (update_law _ _ _ _ _ U) as (R & _).
  rewrite R, G2, P2, M2, G, P. unfold mem_of at 1. f_equal. f_equal. f_equal.
  assert ((lower c', upper c') = (lower c, upper c)) as -> by (unfold mem_of in M; congruence). exact Lc.
Qed.
Lemma negate_twice x : Bsign x = false -> f_sub f_zero (f_sub f_zero x) = x.
Proof. destruct x as [s|s| |s m e H]; cbn [Bsign]; intros E; try subst s; reflexivity. Qed.
Lemma turn_gains t Kp Ki Kd c d : plus_signed (per_sample Forward t Kp Ki Kd) -> gains_of c = per_sample (dir c) t Kp Ki Kd ->
  gains_of (set_direction d c) = per_sample d t Kp Ki Kd /\ prop (set_direction d c) = prop c /\ mem_of (set_direction d c) = mem_of c.
Proof.
  intros (S1 & S2 & S3) G. unfold set_direction. destruct (same_direction d (dir c)) eqn:Sd.
  - assert (d = dir c) as -> by (destruct d, (dir c); try reflexivity; discriminate). auto.
  - assert (dir c = match d with Forward => Reverse | Reverse => Forward end) as Hd by (destruct d, (dir c); try reflexivity; discriminate Sd).
    rewrite Hd in G. unfold gains_of, per_sample in *. cbn [gP gI gD signed] in S1, S2, S3. destruct d; cbn [signed kp ki kd] in G |- *.
    + assert (kp c = f_sub f_zero Kp) as -> by congruence. assert (ki c = f_sub f_zero (f_mul Ki (f_div (f_ofZ t) (f_ofZ 1000)))) as -> by congruence.
      assert (kd c = f_sub f_zero (f_div Kd (f_div (f_ofZ t) (f_ofZ 1000)))) as -> by congruence.
      split; [|split; reflexivity]. unfold negated. f_equal; apply negate_twice; assumption.
    + assert (kp c = Kp) as -> by congruence. assert (ki c = f_mul Ki (f_div (f_ofZ t) (f_ofZ 1000))) as -> by congruence.
      assert (kd c = f_div Kd (f_div (f_ofZ t) (f_ofZ 1000))) as -> by congruence. split; [|split]; reflexivity.
Qed.
Lemma turns_law dbg t Kp Ki Kd : plus_signed (per_sample Forward t Kp Ki Kd) -> forall os d v c hs v' c', Forall steady os -> observe_turns dbg d os (v, c) = Ok (hs, (v', c')) ->
  dir c = d -> gains_of c = per_sample d t Kp Ki Kd ->
  gains_of c' = per_sample (direction_in_force d os) t Kp Ki Kd /\ prop c' = prop c /\
  mem_of c' = fold_left (fun m dh => happens (per_sample (fst dh) t Kp Ki Kd) (prop c) m (snd dh)) hs (mem_of c).
Proof.
  intros PS. induction os as [|o os IH]; intros d v c hs v' c' P E Hd G; cbn [observe_turns] in E.
  - apply ok_pair in E. destruct E as [<- E]. apply pair_equal_spec in E. destruct E as [<- <-]. auto.
  - inversion P; subst. cbv zeta in E. cbn [fst snd] in E. destruct (ctl_call dbg o (v, c)) as [[v1 c1]| | | |] eqn:C; try discriminate. cbn [bind] in E.
    destruct (observe_turns _ _ os (v1, c1)) as [[hs1 [v2 c2]]| | | |] eqn:O; try discriminate. cbn [bind] in E. apply ok_pair in E. destruct E as (<- & E). apply pair_equal_spec in E. destruct E as [<- <-].
    pose proof (call_dir _ _ _ _ _ _ C) as D1.
    assert (gains_of c1 = per_sample (dir c1) t Kp Ki Kd /\ prop c1 = prop c /\
      mem_of c1 = fold_left (fun m dh => happens (per_sample (fst dh) t Kp Ki Kd) (prop c) m (snd dh)) (match o with
        | Initialize => [(dir c, Took_over (output v) (input v))]
        | Update now => if fst (fst (update now v c)) then [(dir c, Sampled (setpoint v) (input v))] else []
        | Limits a b => [(dir c, Limited a b)] | _ => [] end) (mem_of c)) as (G1 & P1 & M1).
    { assert (plain o \/ exists d, o = Direction d) as [Pl|[d ->]] by (destruct o; cbn in *; eauto).
      - destruct (call_law _ _ _ _ _ _ Pl C) as (A & B & M). rewrite D1. split; [|split; [exact B|]].
        + rewrite A, G. destruct o; try contradiction; reflexivity.
        + rewrite M, G. destruct o; try contradiction; cbn [fold_left fst snd]; try reflexivity. destruct (fst (fst (update now v c))); reflexivity.
      - cbn [ctl_call] in C. apply ok_pair in C. destruct C as [<- <-]. rewrite D1. cbn [fold_left]. now apply turn_gains. }
    rewrite D1 in G1. destruct (IH _ _ _ _ _ _ H2 O D1 G1) as (A & B & D). split; [exact A|]. split; [congruence|]. rewrite D, M1, P1, fold_left_app. reflexivity.
Qed.
Lemma law_turned dbg now0 a b k p0 d c0 v0 pre Kp Ki Kd p v1 c1 :
  ctl_new dbg now0 a b k p0 d = Ok c0 -> numeric_limits pre -> ctl_calls dbg (pre ++ [Tunings Kp Ki Kd p]) (v0, c0) = Ok (v1, c1) ->
  let g d := per_sample d (sampling_in_force pre) Kp Ki Kd in
  let d1 := direction_in_force d pre in
  plus_signed (g Forward) ->
  exists i x, forall os hs v2 c2 now v3 c3, Forall steady os -> observe_turns dbg d1 os (v1, c1) = Ok (hs, (v2, c2)) -> update now v2 c2 = (true, v3, c3) ->
    output v3 = response (g (direction_in_force d1 os)) p (fold_left (fun m dh => happens (g (fst dh)) p m (snd dh)) hs (i, x, in_force pre)) (setpoint v2) (input v2).
Proof.
  intros N L E. cbv zeta. intros PS. rewrite calls_app in E. destruct (ctl_calls dbg pre (v0, c0)) as [[v c]| | | |] eqn:Ep; try discriminate. cbn [bind ctl_calls ctl_call] in E.
  destruct (set_tunings dbg Kp Ki Kd p c) as [c'| | | |] eqn:T; try discriminate. cbn [bind] in E. apply ok_pair in E. destruct E as [<- <-].
  destruct (tunings_gains _ _ _ _ _ _ _ T) as (G & P & M). exists (cumulative c'), (last_reading c').
  destruct (ctl_new_limits _ _ _ _ _ _ _ _ N) as (L0 & S0).
  pose proof (calls_limits _ _ _ _ _ _ Ep L) as Lc. rewrite L0 in Lc. pose proof (calls_sampling _ _ _ _ _ _ Ep) as Sc. rewrite S0 in Sc. fold (sampling_in_force pre) in Sc.
  pose proof (calls_dir _ _ _ _ _ _ Ep) as Dc. rewrite (new_dir _ _ _ _ _ _ _ _ N) in Dc. rewrite Dc, Sc in G.
  assert (dir c' = direction_in_force d pre) as Dc'. { unfold set_tunings in T. apply assert_ok, assert_ok, ok_inj in T. subst c'. exact Dc. }
  intros os hs v2 c2 now v3 c3 Pl O U. destruct (turns_law _ _ _ _ _ PS _ _ _ _ _ _ _ Pl O Dc' G) as (G2 & P2 & M2). destruct (update_law _ _ _ _ _ U) as (R & _).
  rewrite R, G2, P2, M2, P. unfold mem_of at 1. f_equal. f_equal. f_equal.
  assert ((lower c', upper c') = (lower c, upper c)) as -> by (unfold mem_of in M; congruence). exact Lc.
Qed.

(** ** The state after setting up *)
Lemma new_last dbg now a b k p d c : ctl_new dbg now a b k p d = Ok c -> last_time c = ksub MS MS now 100.
Proof.
  unfold ctl_new. destruct (set_tunings _ _ _ _ _ _) as [c1| | | |] eqn:E; try discriminate. cbn [bind]. intros H. apply ok_inj in H. subst c. cbn [last_time].
  f_equal. unfold set_tunings in E. apply assert_ok, assert_ok, ok_inj in E. subst c1. cbn [sampling]. unfold set_direction, ctl0. destruct d; reflexivity.
Qed.
Lemma setup_state dbg now0 d T Kp Ki Kd p lo hi u x vc : ready dbg now0 d (setup T Kp Ki Kd p lo hi u x) vc -> 0 < T -> f_lt lo hi = true ->
  exists s, vc = (mkCells x u s, mkCtl (gP (per_sample d T Kp Ki Kd)) (gI (per_sample d T Kp Ki Kd)) (gD (per_sample d T Kp Ki Kd)) d (ksub MS MS now0 100) (clamp lo hi u) x T lo hi p).
Proof.
  intros (a & b & k & p0 & c0 & v0 & N & E) HT Hl. pose proof (new_dir _ _ _ _ _ _ _ _ N) as Hd. pose proof (new_last _ _ _ _ _ _ _ _ N) as Ht.
  unfold setup in E. cbn [ctl_calls ctl_call bind] in E.
  unfold set_sampling_time in E. change (kgt MS MS T 0) with (0 <? T) in E. destruct (Z.ltb_spec 0 T); [|lia].
  destruct (set_tunings _ _ _ _ _ _) as [c1| | | |] eqn:S1; try discriminate. cbn [bind] in E.
  unfold set_tunings in S1. apply assert_ok, assert_ok, ok_inj in S1. subst c1. cbn [dir sampling last_time cumulative last_reading lower upper] in E.
  cbn [ctl_call bind] in E. unfold set_output_limits in E. pose proof (lt_nan _ _ Hl) as [Nl Nh]. rewrite ge_lt, Hl in E by assumption. cbn [negb] in E.
  cbn [input output setpoint fst snd bind ctl_call] in E. unfold ctl_initialize in E. cbn [kp ki kd dir last_time sampling lower upper prop input output] in E.
  rewrite Hd, Ht in E. apply ok_inj in E. subst vc. eexists. unfold per_sample, signed, negated. destruct d; reflexivity.
Qed.

(** ** On real numbers *)
Open Scope R_scope.
Definition clampR (lo hi x : R) : R := if Rlt_bool hi x then hi else if Rlt_bool x lo then lo else x.
Definition sumR (p : proportionality) (P I i l s x : R) : R :=
  match p with OnMeasurement => rnd (rnd (i + rnd (I * rnd (s - x))) - rnd (P * rnd (x - l))) | OnError => rnd (i + rnd (I * rnd (s - x))) end.
Definition outR (p : proportionality) (P D i' l s x : R) : R :=
  rnd (match p with OnError => rnd (P * rnd (s - x)) | OnMeasurement => 0 end + rnd (i' - rnd (D * rnd (x - l)))).
(** (integral, last reading, output, time) *)
Definition stR : Type := R * R * R * Z.
Definition stepR (T : Z) (p : proportionality) (P I D lo hi : R) (st : stR) (now : Z) (s x : R) : bool * stR :=
  let '(i, l, o, lt) := st in
  if kge MS MS (ksub MS MS now lt) T then
    let i' := clampR lo hi (sumR p P I i l s x) in (true, (i', x, clampR lo hi (outR p P D i' l s x), now))
  else (false, st).
Fixpoint runR (T : Z) (p : proportionality) (P I D lo hi : R) (ss : list (Z * R * R)) (st : stR) : list (bool * R) :=
  match ss with
  | [] => []
  | (now, s, x) :: ss' => let '(b, st') := stepR T p P I D lo hi st now s x in (b, snd (fst st')) :: runR T p P I D lo hi ss' st'
  end.
Definition reals (q : Z * float * float) : Z * R * R := (fst (fst q), val (snd (fst q)), val (snd q)).
Definition b40 := bpow radix2 40.
Definition b60 := bpow radix2 60.

Lemma clamp_val lo hi x : finite lo = true -> finite hi = true -> finite x = true -> val (clamp lo hi x) = clampR (val lo) (val hi) (val x) /\ finite (clamp lo hi x) = true.
Proof.
  intros A B C. unfold clamp, clampR. change (f_gt x hi) with (f_lt hi x). rewrite !lt_val by assumption.
  destruct (Rlt_bool (val hi) (val x)); [auto|]. destruct (Rlt_bool (val x) (val lo)); auto.
Qed.
Lemma clampR_range lo hi x : lo <= hi -> lo <= clampR lo hi x <= hi.
Proof. intros H. unfold clampR. destruct (Rlt_bool_spec hi x); [lra|]. destruct (Rlt_bool_spec x lo); lra. Qed.
Lemma clampR_mono lo hi x y : lo <= hi -> x <= y -> clampR lo hi x <= clampR lo hi y.
Proof. intros H L. unfold clampR. destruct (Rlt_bool_spec hi x), (Rlt_bool_spec hi y); try lra; destruct (Rlt_bool_spec x lo); try lra; destruct (Rlt_bool_spec y lo); lra. Qed.
Lemma clampR_id lo hi x : lo <= x <= hi -> clampR lo hi x = x.
Proof. intros H. unfold clampR. destruct (Rlt_bool_spec hi x); [lra|]. destruct (Rlt_bool_spec x lo); lra. Qed.

Lemma add_bound x y a : Rabs x <= bpow radix2 a -> Rabs y <= bpow radix2 a -> Rabs (x + y) <= bpow radix2 (a + 1).
Proof. intros H K. rewrite bpow_plus. change (bpow radix2 1) with 2. apply Rle_trans with (1 := Rabs_triang x y). lra. Qed.
Lemma sub_bound x y a : Rabs x <= bpow radix2 a -> Rabs y <= bpow radix2 a -> Rabs (x - y) <= bpow radix2 (a + 1).
Proof. intros H K. apply add_bound; [assumption|]. rewrite Rabs_Ropp. assumption. Qed.
Lemma mul_bound x y a b : Rabs x <= bpow radix2 a -> Rabs y <= bpow radix2 b -> Rabs (x * y) <= bpow radix2 (a + b).
Proof. intros H K. rewrite Rabs_mult, bpow_plus. apply Rmult_le_compat; auto using Rabs_pos. Qed.
Lemma weaken x a b : Rabs x <= bpow radix2 a -> (a <= b)%Z -> Rabs x <= bpow radix2 b.
Proof. intros H K. apply Rle_trans with (1 := H). now apply bpow_le. Qed.

(** Operations with bounds: the exponent of the bound of the result *)
Definition within2 (e : Z) (x : float) : Prop := finite x = true /\ Rabs (val x) <= bpow radix2 e.
Lemma w_sub x y a : within2 a x -> within2 a y -> (-149 <= a + 1 < 128)%Z -> within2 (a + 1) (f_sub x y) /\ val (f_sub x y) = rnd (val x - val y).
Proof.
  intros [F A] [G B] H. pose proof (sub_bound _ _ _ A B) as K. destruct (sub_val x y F G) as [V W]; [apply rnd_small with (a + 1)%Z; assumption|].
  split; [split; [assumption|]|assumption]. rewrite V. apply rnd_bound; [lia|assumption].
Qed.
Lemma w_add x y a : within2 a x -> within2 a y -> (-149 <= a + 1 < 128)%Z -> within2 (a + 1) (f_add x y) /\ val (f_add x y) = rnd (val x + val y).
Proof.
  intros [F A] [G B] H. pose proof (add_bound _ _ _ A B) as K. destruct (add_val x y F G) as [V W]; [apply rnd_small with (a + 1)%Z; assumption|].
  split; [split; [assumption|]|assumption]. rewrite V. apply rnd_bound; [lia|assumption].
Qed.
Lemma w_mul x y a b : within2 a x -> within2 b y -> (-149 <= a + b < 128)%Z -> within2 (a + b) (f_mul x y) /\ val (f_mul x y) = rnd (val x * val y).
Proof.
  intros [F A] [G B] H. pose proof (mul_bound _ _ _ _ A B) as K. destruct (mul_val x y F G) as [V W]; [apply rnd_small with (a + b)%Z; assumption|].
  split; [split; [assumption|]|assumption]. rewrite V. apply rnd_bound; [lia|assumption].
Qed.
Lemma w_weak x a b : within2 a x -> (a <= b)%Z -> within2 b x.
Proof. intros [F A] H. split; [assumption|]. eapply weaken; eassumption. Qed.
Lemma w_zero e : within2 e f_zero.
Proof. split; [reflexivity|]. change (val f_zero) with 0. rewrite Rabs_R0. apply bpow_ge_0. Qed.

Record sim (T : Z) (p : proportionality) (P I D : R) (lo hi : float) (vc : cells * ctl) (st : stR) : Prop := {
  sim_T : sampling (snd vc) = T; sim_p : prop (snd vc) = p;
  sim_kp : within2 60 (kp (snd vc)) /\ val (kp (snd vc)) = P; sim_ki : within2 60 (ki (snd vc)) /\ val (ki (snd vc)) = I; sim_kd : within2 60 (kd (snd vc)) /\ val (kd (snd vc)) = D;
  sim_lo : lower (snd vc) = lo; sim_hi : upper (snd vc) = hi;
  sim_i : finite (cumulative (snd vc)) = true /\ val lo <= val (cumulative (snd vc)) <= val hi;
  sim_l : within2 40 (last_reading (snd vc));
  sim_st : st = (val (cumulative (snd vc)), val (last_reading (snd vc)), val (output (fst vc)), last_time (snd vc)) }.
Lemma w_range lo hi x e : within2 e lo -> within2 e hi -> finite x = true -> val lo <= val x <= val hi -> within2 e x.
Proof.
  intros [_ A] [_ B] F H. split; [assumption|]. apply Rabs_le. apply Rabs_le_inv in A. apply Rabs_le_inv in B. lra.
Qed.
Lemma step_sim T p P I D lo hi v c st now s x b v' c' : within2 40 lo -> within2 40 hi -> val lo <= val hi -> sim T p P I D lo hi (v, c) st ->
  within2 40 s -> within2 40 x -> update now (mkCells x (output v) s) c = (b, v', c') ->
  exists st', stepR T p P I D (val lo) (val hi) st now (val s) (val x) = (b, st') /\ sim T p P I D lo hi (v', c') st' /\ snd (fst st') = val (output v').
Proof.
  intros Wl Wh Hl S0 Ws Wx E. destruct S0 as [H1 H2 [Wp H3] [Wi H4] [Wd H5] H6 H7 [Fi Hi] Wr H8]. cbn [fst snd] in *. subst st. unfold stepR. rewrite <- H1.
  unfold update in E. destruct (kge _ _ _ _) eqn:K.
  2:{ apply pair_equal_spec in E. destruct E as [E <-]. apply pair_equal_spec in E. destruct E as [<- <-]. eexists. split; [reflexivity|]. split; [|reflexivity]. constructor; cbn [fst snd output]; auto. }
  cbn [input output setpoint] in E. rewrite H2, H6, H7 in E.
  pose proof (w_range _ _ _ _ Wl Wh Fi Hi) as Wc. set (i := cumulative c) in *. set (l := last_reading c) in *.
  destruct (w_sub s x 40 Ws Wx) as [We Ve]; [lia|]. destruct (w_sub x l 40 Wx Wr) as [Wy Vy]; [lia|].
  destruct (w_mul (ki c) (f_sub s x) 60 41 Wi We) as [Wie Vie]; [lia|]. destruct (w_mul (kp c) (f_sub s x) 60 41 Wp We) as [Wpe Vpe]; [lia|].
  destruct (w_mul (kp c) (f_sub x l) 60 41 Wp Wy) as [Wpy Vpy]; [lia|]. destruct (w_mul (kd c) (f_sub x l) 60 41 Wd Wy) as [Wdy Vdy]; [lia|].
  destruct (w_add i (f_mul (ki c) (f_sub s x)) 101) as [Wa Va]; [apply w_weak with (1 := Wc); lia|assumption|lia|].
  destruct (w_sub (f_add i (f_mul (ki c) (f_sub s x))) (f_mul (kp c) (f_sub x l)) 102) as [Wb Vb]; [assumption|apply w_weak with (1 := Wpy); lia|lia|].
  set (cum := match p with OnMeasurement => f_sub (f_add i (f_mul (ki c) (f_sub s x))) (f_mul (kp c) (f_sub x l)) | OnError => f_add i (f_mul (ki c) (f_sub s x)) end) in *.
  assert (finite cum = true /\ val cum = sumR p P I (val i) (val l) (val s) (val x)) as [Fcum Vcum].
  { unfold cum, sumR. destruct p; (split; [first [apply Wb|apply Wa]|]); rewrite ?Vb, Va, Vie, ?Vpy, Ve, ?Vy, H4, ?H3; reflexivity. }
  destruct (clamp_val lo hi cum) as [Vi' Fi']; [apply Wl|apply Wh|assumption|]. rewrite Vcum in Vi'.
  pose proof (clampR_range (val lo) (val hi) (sumR p P I (val i) (val l) (val s) (val x)) Hl) as Ri. rewrite <- Vi' in Ri.
  pose proof (w_range _ _ _ _ Wl Wh Fi' Ri) as Wi'. set (i' := clamp lo hi cum) in *.
  destruct (w_sub i' (f_mul (kd c) (f_sub x l)) 101) as [Wq Vq]; [apply w_weak with (1 := Wi'); lia|assumption|lia|].
  set (pt := match p with OnError => f_mul (kp c) (f_sub s x) | OnMeasurement => f_zero end) in *.
  assert (within2 102 pt) as Wpt by (unfold pt; destruct p; [apply w_zero|apply w_weak with (1 := Wpe); lia]).
  destruct (w_add pt (f_sub i' (f_mul (kd c) (f_sub x l))) 102) as [Wo Vo]; [assumption|assumption|lia|].
  destruct (clamp_val lo hi (f_add pt (f_sub i' (f_mul (kd c) (f_sub x l))))) as [Vf Ff]; [apply Wl|apply Wh|apply Wo|].
  apply pair_equal_spec in E. destruct E as [E <-]. apply pair_equal_spec in E. destruct E as [<- <-].
  eexists. split; [reflexivity|].
  assert (clampR (val lo) (val hi) (outR p P D (clampR (val lo) (val hi) (sumR p P I (val i) (val l) (val s) (val x))) (val l) (val s) (val x)) =
          val (clamp lo hi (f_add pt (f_sub i' (f_mul (kd c) (f_sub x l)))))) as Eo.
  { rewrite Vf. f_equal. unfold outR. rewrite Vo, Vq, Vdy, Vy, Vi', H5. unfold pt. destruct p; [reflexivity|]. rewrite Vpe, Ve, H3. reflexivity. }
  split; [|exact Eo]. constructor; cbn [fst snd sampling prop kp ki kd lower upper cumulative last_reading output last_time]; auto.
  rewrite Eo, Vi'. reflexivity.
Qed.
Lemma run_sim T p P I D lo hi ss : within2 40 lo -> within2 40 hi -> val lo <= val hi -> forall vc st, sim T p P I D lo hi vc st -> Forall moderate_sample ss ->
  map (fun q => (fst q, val (snd q))) (outputs ss vc) = runR T p P I D (val lo) (val hi) (map reals ss) st.
Proof.
  intros Wl Wh Hl. induction ss as [|[[now s] x] ss IH]; intros [v c] st S0 M; [reflexivity|]. inversion M as [|? ? [Ms Mx] M']; subst. cbn [fst snd] in *.
  cbn [outputs map runR reals fst snd]. destruct (update now _ c) as [[b v'] c'] eqn:U. cbn [map fst snd].
  destruct (step_sim _ _ _ _ _ _ _ _ _ _ _ _ _ _ _ _ Wl Wh Hl S0 Ms Mx U) as (st' & E & S' & O). rewrite E, O. f_equal. now apply IH.
Qed.

(** ** Setting up, on real numbers *)
Definition sR (d : direction) : R := match d with Forward => 1 | Reverse => -1 end.
Lemma signed_val d x e : (-149 <= e < 127)%Z -> within2 e x -> within2 e (signed d x) /\ val (signed d x) = sR d * val x.
Proof.
  intros He Wx. unfold signed, sR. destruct d; [split; [assumption|lra]|].
  destruct (w_sub f_zero x e (w_zero e) Wx) as [[F _] V]; [lia|]. change (val f_zero) with 0 in V. rewrite Rminus_0_l, rnd_opp, (rnd_id _ (val_fmt x)) in V.
  split; [|lra]. split; [assumption|]. rewrite V, Rabs_Ropp. apply Wx.
Qed.
Definition seconds (T : Z) : float := f_div (f_ofZ T) (f_ofZ 1000).
Lemma seconds_val T : (1 <= T <= 2 ^ 24)%Z -> finite (seconds T) = true /\ bpow radix2 (-10) <= val (seconds T) <= bpow radix2 15.
Proof.
  intros H. destruct (ofZ_exact T) as [V F]; [lia|]. destruct (ofZ_exact 1000) as [V0 F0]; [lia|].
  assert (1 <= IZR T <= 16777216) as R by (split; apply IZR_le; lia).
  assert (bpow radix2 (-10) <= IZR T / IZR 1000 <= bpow radix2 15) as B by (change (bpow radix2 (-10)) with (/ 1024); change (bpow radix2 15) with 32768; lra).
  assert (Rabs (IZR T / IZR 1000) <= bpow radix2 15) as A by (pose proof (bpow_ge_0 radix2 (-10)); apply Rabs_le; lra).
  unfold seconds. destruct (div_val (f_ofZ T) (f_ofZ 1000) F F0) as [W G]; [rewrite V0; lra|rewrite V, V0; apply rnd_small with 15%Z; [lia|assumption]|].
  split; [assumption|]. rewrite W, V, V0. split.
  - rewrite <- (rnd_id (bpow radix2 (-10))) by (apply fmt_bpow; lia). apply rnd_le, B.
  - rewrite <- (rnd_id (bpow radix2 15)) by (apply fmt_bpow; lia). apply rnd_le, B.
Qed.
Definition gPR T Kp Ki Kd := val (gP (per_sample Forward T Kp Ki Kd)).
Definition gIR T Kp Ki Kd := val (gI (per_sample Forward T Kp Ki Kd)).
Definition gDR T Kp Ki Kd := val (gD (per_sample Forward T Kp Ki Kd)).
Lemma moderate_within x : moderate x <-> within2 40 x. Proof. split; intros H; exact H. Qed.
Lemma forward_gains T Kp Ki Kd : (1 <= T <= 2 ^ 24)%Z -> gain Kp -> gain Ki -> gain Kd ->
  (within2 60 Kp /\ 0 <= val Kp) /\ (within2 60 (f_mul Ki (seconds T)) /\ 0 <= val (f_mul Ki (seconds T))) /\ (within2 60 (f_div Kd (seconds T)) /\ 0 <= val (f_div Kd (seconds T))).
Proof.
  intros HT [Mp Pp] [Mi Pi] [[Fd Bd] Pd]. destruct (seconds_val T HT) as [Fs Bs]. pose proof (bpow_gt_0 radix2 (-10)) as Z10.
  assert (within2 15 (seconds T)) as Ws by (split; [assumption|apply Rabs_le; lra]). split; [split; [apply w_weak with (1 := Mp); lia|assumption]|]. split.
  - destruct (w_mul Ki (seconds T) 40 15 Mi Ws) as [W V]; [lia|]. split; [apply w_weak with (1 := W); lia|]. rewrite V. rewrite <- rnd_0. apply rnd_le. unfold num in Pi. fold (val Ki) in Pi. apply Rmult_le_pos; lra.
  - unfold num in *. fold (val Kd) in *.
    assert (Rabs (val Kd / val (seconds T)) <= bpow radix2 50) as A.
    { unfold Rdiv. rewrite Rabs_mult. change 50%Z with (40 + 10)%Z. rewrite bpow_plus. apply Rmult_le_compat; auto using Rabs_pos.
      rewrite Rabs_inv, Rabs_pos_eq by lra. change (bpow radix2 10) with (bpow radix2 (- -10)). rewrite bpow_opp. apply Rinv_le; lra. }
    destruct (div_val Kd (seconds T) Fd Fs) as [V F]; [lra|apply rnd_small with 50%Z; [lia|assumption]|].
    split; [split; [assumption|rewrite V; apply weaken with 50%Z; [apply rnd_bound; [lia|assumption]|lia]]|].
    rewrite V, <- rnd_0. apply rnd_le. apply Rmult_le_pos; [assumption|]. apply Rlt_le, Rinv_0_lt_compat. lra.
Qed.
Lemma gains_pos T Kp Ki Kd : (1 <= T <= 2 ^ 24)%Z -> gain Kp -> gain Ki -> gain Kd -> 0 <= gPR T Kp Ki Kd /\ 0 <= gIR T Kp Ki Kd /\ 0 <= gDR T Kp Ki Kd.
Proof. intros A B C D. destruct (forward_gains T Kp Ki Kd A B C D) as ([_ P] & [_ I] & [_ Q]). repeat split; assumption. Qed.
Lemma setup_sim dbg now0 d T Kp Ki Kd p lo hi u x vc : (1 <= T <= 2 ^ 24)%Z -> gain Kp -> gain Ki -> gain Kd -> moderate lo -> moderate hi -> moderate u -> moderate x -> f_lt lo hi = true ->
  ready dbg now0 d (setup T Kp Ki Kd p lo hi u x) vc ->
  sim T p (sR d * gPR T Kp Ki Kd) (sR d * gIR T Kp Ki Kd) (sR d * gDR T Kp Ki Kd) lo hi vc (clampR (val lo) (val hi) (val u), val x, val u, ksub MS MS now0 100%Z).
Proof.
  intros HT Gp Gi Gd Ml Mh Mu Mx Hl Rd. destruct (setup_state _ _ _ _ _ _ _ _ _ _ _ _ _ Rd) as [s ->]; [lia|assumption|].
  destruct (forward_gains T Kp Ki Kd HT Gp Gi Gd) as ([Wp _] & [Wi _] & [Wd _]).
  assert (val lo <= val hi) as L. { rewrite lt_val in Hl by (apply Ml || apply Mh). apply Rlt_le. destruct (Rlt_bool_spec (val lo) (val hi)); [assumption|discriminate]. }
  destruct (clamp_val lo hi u) as [Vc Fc]; [apply Ml|apply Mh|apply Mu|].
  constructor; cbn [fst snd sampling prop kp ki kd lower upper cumulative last_reading output last_time]; auto.
  - destruct (signed_val d Kp 60) as [W V]; [lia|assumption|]. split; [exact W|exact V].
  - destruct (signed_val d (f_mul Ki (seconds T)) 60) as [W V]; [lia|assumption|]. split; [exact W|exact V].
  - destruct (signed_val d (f_div Kd (seconds T)) 60) as [W V]; [lia|assumption|]. split; [exact W|exact V].
  - split; [assumption|]. rewrite Vc. now apply clampR_range.
  - rewrite Vc. reflexivity.
Qed.
Lemma limits_le lo hi : moderate lo -> moderate hi -> f_lt lo hi = true -> val lo <= val hi.
Proof. intros Ml Mh Hl. rewrite lt_val in Hl by (apply Ml || apply Mh). apply Rlt_le. destruct (Rlt_bool_spec (val lo) (val hi)); [assumption|discriminate]. Qed.

(** ** Mirrored *)
Lemma rnd_neg x y : x = - y -> rnd x = - rnd y. Proof. intros ->. apply rnd_opp. Qed.
Lemma sum_mirror p P I i l s x : sumR p (- P) (- I) i l s x = sumR p P I i (- l) (- s) (- x).
Proof.
  unfold sumR. rewrite (rnd_neg (- s - - x) (s - x)) by lra. rewrite (rnd_neg (- x - - l) (x - l)) by lra.
  rewrite !Ropp_mult_distr_l_reverse, !Ropp_mult_distr_r_reverse. reflexivity.
Qed.
Lemma out_mirror p P D i l s x : outR p (- P) (- D) i l s x = outR p P D i (- l) (- s) (- x).
Proof.
  unfold outR. rewrite (rnd_neg (- s - - x) (s - x)) by lra. rewrite (rnd_neg (- x - - l) (x - l)) by lra.
  rewrite !Ropp_mult_distr_l_reverse, !Ropp_mult_distr_r_reverse. reflexivity.
Qed.
Definition negate3 (q : Z * R * R) : Z * R * R := (fst (fst q), - snd (fst q), - snd q).
Lemma run_mirror T p P I D lo hi ss : forall i l o lt, runR T p (- P) (- I) (- D) lo hi ss (i, l, o, lt) = runR T p P I D lo hi (map negate3 ss) (i, - l, o, lt).
Proof.
  induction ss as [|[[now s] x] ss IH]; intros i l o lt; [reflexivity|]. cbn [runR map negate3 fst snd stepR]. destruct (kge _ _ _ _); cbn [fst snd]; [|f_equal; apply IH].
  rewrite sum_mirror, out_mirror. f_equal. apply IH.
Qed.
Lemma same_map (xs ys : list (bool * float)) : map (fun q => (fst q, val (snd q))) xs = map (fun q => (fst q, val (snd q))) ys -> Forall2 same_response xs ys.
Proof.
  revert ys. induction xs as [|a xs IH]; intros [|b ys] E; try discriminate; [constructor|]. cbn [map] in E. constructor; [|apply IH; congruence].
  assert ((fst a, val (snd a)) = (fst b, val (snd b))) as E' by congruence. apply pair_equal_spec in E'. exact E'.
Qed.
Lemma mirror_right dbg dbg' now0 T Kp Ki Kd p lo hi u x x' vc vc' ss ss' :
  (1 <= T <= 2 ^ 24)%Z -> gain Kp -> gain Ki -> gain Kd -> moderate lo -> moderate hi -> moderate u -> moderate x -> moderate x' -> f_lt lo hi = true ->
  num x' = - num x ->
  ready dbg now0 Reverse (setup T Kp Ki Kd p lo hi u x) vc -> ready dbg' now0 Forward (setup T Kp Ki Kd p lo hi u x') vc' ->
  Forall moderate_sample ss -> Forall moderate_sample ss' ->
  Forall2 (fun q q' => fst (fst q') = fst (fst q) /\ num (snd (fst q')) = - num (snd (fst q)) /\ num (snd q') = - num (snd q)) ss ss' ->
  Forall2 same_response (outputs ss vc) (outputs ss' vc').
Proof.
  intros HT Gp Gi Gd Ml Mh Mu Mx Mx' Hl Ex R1 R2 M1 M2 F.
  pose proof (setup_sim _ _ _ _ _ _ _ _ _ _ _ _ _ HT Gp Gi Gd Ml Mh Mu Mx Hl R1) as S1. pose proof (setup_sim _ _ _ _ _ _ _ _ _ _ _ _ _ HT Gp Gi Gd Ml Mh Mu Mx' Hl R2) as S2.
  pose proof (limits_le _ _ Ml Mh Hl) as L. apply same_map. rewrite (run_sim _ _ _ _ _ _ _ _ Ml Mh L _ _ S1 M1), (run_sim _ _ _ _ _ _ _ _ Ml Mh L _ _ S2 M2).
  cbn [sR]. rewrite !Rmult_1_l. change (num x') with (val x') in Ex. change (num x) with (val x) in Ex.
  replace (-1 * gPR T Kp Ki Kd) with (- gPR T Kp Ki Kd) by lra. replace (-1 * gIR T Kp Ki Kd) with (- gIR T Kp Ki Kd) by lra. replace (-1 * gDR T Kp Ki Kd) with (- gDR T Kp Ki Kd) by lra.
  rewrite run_mirror, <- Ex. f_equal. clear - F. induction F as [|[[n s] x] [[n' s'] x'] ss ss' (A & B & C) F IH]; [reflexivity|]. cbn [map reals negate3 fst snd num] in *. 
  apply f_equal2; [|exact IH]. unfold negate3. cbn [fst snd]. apply pair_equal_spec; split; [apply pair_equal_spec; split|]; symmetry; assumption.
Qed.

(** ** Monotone *)
Lemma sum_mono p P I i i' l s s' x x' : 0 <= P -> 0 <= I -> i' <= i -> s' <= s -> x <= x' -> sumR p P I i' l s' x' <= sumR p P I i l s x.
Proof.
  intros HP HI Hi Hs Hx. assert (rnd (i' + rnd (I * rnd (s' - x'))) <= rnd (i + rnd (I * rnd (s - x)))) as A.
  { apply rnd_le, Rplus_le_compat; [assumption|]. apply rnd_le, Rmult_le_compat_l; [assumption|]. apply rnd_le. lra. }
  unfold sumR. destruct p; [|exact A]. apply rnd_le. apply Rplus_le_compat; [exact A|]. apply Ropp_le_contravar, rnd_le, Rmult_le_compat_l; [assumption|]. apply rnd_le. lra.
Qed.
Lemma out_mono p P D i i' l s s' x x' : 0 <= P -> 0 <= D -> i' <= i -> s' <= s -> x <= x' -> outR p P D i' l s' x' <= outR p P D i l s x.
Proof.
  intros HP HD Hi Hs Hx. unfold outR. apply rnd_le, Rplus_le_compat.
  - destruct p; [lra|]. apply rnd_le, Rmult_le_compat_l; [assumption|]. apply rnd_le. lra.
  - apply rnd_le, Rplus_le_compat; [assumption|]. apply Ropp_le_contravar, rnd_le, Rmult_le_compat_l; [assumption|]. apply rnd_le. lra.
Qed.
Definition hotter (a b : bool * R) : Prop := fst a = fst b /\ snd b <= snd a.
Lemma run_mono T p P I D lo hi ss ss' q q' : 0 <= P -> 0 <= I -> 0 <= D -> lo <= hi ->
  Forall2 (fun (a b : Z * R * R) => fst (fst b) = fst (fst a) /\ snd (fst b) <= snd (fst a) /\ snd b = snd a) ss ss' ->
  fst (fst q') = fst (fst q) -> snd (fst q') <= snd (fst q) -> snd q <= snd q' -> forall i i' l o o' lt, i' <= i -> o' <= o ->
  Forall2 hotter (runR T p P I D lo hi (ss ++ [q]) (i, l, o, lt)) (runR T p P I D lo hi (ss' ++ [q']) (i', l, o', lt)).
Proof.
  intros HP HI HD L F E1 E2 E3. induction F as [|[[n s] x] [[n' s'] x'] ss ss' (A & B & C) F IH]; intros i i' l o o' lt Hi Ho.
  - destruct q as [[n s] x], q' as [[n' s'] x']. cbn [fst snd] in *. subst n'. cbn [app runR stepR]. destruct (kge _ _ _ _); cbn [fst snd]; (constructor; [split; [reflexivity|]|constructor]); [|assumption].
    cbn [snd]. apply clampR_mono; [assumption|]. apply out_mono; auto. apply clampR_mono; [assumption|]. now apply sum_mono.
  - cbn [fst snd] in *. subst n' x'. cbn [app runR stepR]. assert (x <= x) as Hx by lra.
    destruct (kge _ _ _ _); cbn [fst snd]; (constructor; [split; [reflexivity|]|apply IH]); cbn [snd]; auto.
    + apply clampR_mono; [assumption|]. apply out_mono; auto. apply clampR_mono; [assumption|]. now apply sum_mono.
    + apply clampR_mono; [assumption|]. now apply sum_mono.
    + apply clampR_mono; [assumption|]. apply out_mono; auto. apply clampR_mono; [assumption|]. now apply sum_mono.
Qed.
Lemma hotter_map (xs ys : list (bool * float)) : Forall2 hotter (map (fun q => (fst q, val (snd q))) xs) (map (fun q => (fst q, val (snd q))) ys) ->
  Forall2 (fun a b => fst a = fst b /\ num (snd b) <= num (snd a)) xs ys.
Proof. revert ys. induction xs as [|a xs IH]; intros [|b ys] E; cbn [map] in E; inversion E as [|? ? ? ? H H']; subst; constructor; auto. Qed.
Lemma forward_right dbg dbg' now0 T Kp Ki Kd p lo hi u x vc vc' ss ss' q q' :
  (1 <= T <= 2 ^ 24)%Z -> gain Kp -> gain Ki -> gain Kd -> moderate lo -> moderate hi -> moderate u -> moderate x -> f_lt lo hi = true ->
  ready dbg now0 Forward (setup T Kp Ki Kd p lo hi u x) vc -> ready dbg' now0 Forward (setup T Kp Ki Kd p lo hi u x) vc' ->
  Forall moderate_sample (ss ++ [q]) -> Forall moderate_sample (ss' ++ [q']) ->
  Forall2 (fun a b => fst (fst b) = fst (fst a) /\ num (snd (fst b)) <= num (snd (fst a)) /\ num (snd b) = num (snd a)) ss ss' ->
  fst (fst q') = fst (fst q) -> num (snd (fst q')) <= num (snd (fst q)) -> num (snd q) <= num (snd q') ->
  Forall2 (fun a b => fst a = fst b /\ num (snd b) <= num (snd a)) (outputs (ss ++ [q]) vc) (outputs (ss' ++ [q']) vc').
Proof.
  intros HT Gp Gi Gd Ml Mh Mu Mx Hl R1 R2 M1 M2 F E1 E2 E3.
  pose proof (setup_sim _ _ _ _ _ _ _ _ _ _ _ _ _ HT Gp Gi Gd Ml Mh Mu Mx Hl R1) as S1. pose proof (setup_sim _ _ _ _ _ _ _ _ _ _ _ _ _ HT Gp Gi Gd Ml Mh Mu Mx Hl R2) as S2.
  pose proof (limits_le _ _ Ml Mh Hl) as L. destruct (gains_pos T Kp Ki Kd HT Gp Gi Gd) as (HP & HI & HD).
  apply hotter_map. rewrite (run_sim _ _ _ _ _ _ _ _ Ml Mh L _ _ S1 M1), (run_sim _ _ _ _ _ _ _ _ Ml Mh L _ _ S2 M2).
  cbn [sR]. rewrite !Rmult_1_l, !map_app. apply run_mono; auto; try apply Rle_refl.
  clear - F. induction F as [|a b ss ss' H F IH]; [constructor|]. cbn [map]. constructor; [exact H|exact IH].
Qed.
Lemma reverse_right dbg dbg' now0 T Kp Ki Kd p lo hi u x vc vc' ss ss' q q' :
  (1 <= T <= 2 ^ 24)%Z -> gain Kp -> gain Ki -> gain Kd -> moderate lo -> moderate hi -> moderate u -> moderate x -> f_lt lo hi = true ->
  ready dbg now0 Reverse (setup T Kp Ki Kd p lo hi u x) vc -> ready dbg' now0 Reverse (setup T Kp Ki Kd p lo hi u x) vc' ->
  Forall moderate_sample (ss ++ [q]) -> Forall moderate_sample (ss' ++ [q']) ->
  Forall2 (fun a b => fst (fst b) = fst (fst a) /\ num (snd (fst b)) <= num (snd (fst a)) /\ num (snd b) = num (snd a)) ss ss' ->
  fst (fst q') = fst (fst q) -> num (snd (fst q')) <= num (snd (fst q)) -> num (snd q) <= num (snd q') ->
  Forall2 (fun a b => fst a = fst b /\ num (snd a) <= num (snd b)) (outputs (ss ++ [q]) vc) (outputs (ss' ++ [q']) vc').
Proof.
  intros HT Gp Gi Gd Ml Mh Mu Mx Hl R1 R2 M1 M2 F E1 E2 E3.
  pose proof (setup_sim _ _ _ _ _ _ _ _ _ _ _ _ _ HT Gp Gi Gd Ml Mh Mu Mx Hl R1) as S1. pose proof (setup_sim _ _ _ _ _ _ _ _ _ _ _ _ _ HT Gp Gi Gd Ml Mh Mu Mx Hl R2) as S2.
  pose proof (limits_le _ _ Ml Mh Hl) as L. destruct (gains_pos T Kp Ki Kd HT Gp Gi Gd) as (HP & HI & HD).
  enough (Forall2 (fun a b => fst a = fst b /\ num (snd b) <= num (snd a)) (outputs (ss' ++ [q']) vc') (outputs (ss ++ [q]) vc)) as H.
  { clear - H. induction H as [|a b xs ys [A B] H IH]; constructor; auto. }
  apply hotter_map. rewrite (run_sim _ _ _ _ _ _ _ _ Ml Mh L _ _ S1 M1), (run_sim _ _ _ _ _ _ _ _ Ml Mh L _ _ S2 M2).
  cbn [sR]. replace (-1 * gPR T Kp Ki Kd) with (- gPR T Kp Ki Kd) by lra. replace (-1 * gIR T Kp Ki Kd) with (- gIR T Kp Ki Kd) by lra. replace (-1 * gDR T Kp Ki Kd) with (- gDR T Kp Ki Kd) by lra.
  rewrite !run_mirror, !map_app. cbn [map]. unfold num in E2, E3. fold (val (snd (fst q))) (val (snd (fst q'))) in E2. fold (val (snd q)) (val (snd q')) in E3.
  apply run_mono; auto; cbn [negate3 reals fst snd]; try lra.
  clear - F. induction F as [|a b ss ss' (A & B & C) F IH]; [constructor|]. cbn [map]. constructor; [|exact IH].
  cbn [negate3 reals fst snd]. unfold num in *. fold (val (snd (fst a))) (val (snd (fst b))) (val (snd a)) (val (snd b)) in *. split; [congruence|]. split; [lra|congruence].
Qed.

(** ** Held *)
Lemma run_hold T p P I D lo hi i x ss : fmt i -> lo <= i <= hi -> Forall (fun q : Z * R * R => snd (fst q) = x /\ snd q = x) ss ->
  forall lt, Forall (fun r => snd r = i) (runR T p P I D lo hi ss (i, x, i, lt)).
Proof.
  intros Fi Hi F. induction F as [|[[n s] y] ss [A B] F IH]; intros lt; [constructor|]. cbn [fst snd] in *. subst s y. cbn [runR stepR].
  destruct (kge _ _ _ _); cbn [fst snd]; [|constructor; [reflexivity|apply IH]].
  assert (sumR p P I i x x x = i) as ->. { unfold sumR. replace (x - x) with 0 by lra. rewrite rnd_0, !Rmult_0_r, rnd_0, Rplus_0_r, Rminus_0_r, !(rnd_id i) by assumption. destruct p; reflexivity. }
  rewrite (clampR_id lo hi i) by assumption.
  assert (outR p P D i x x x = i) as ->. { unfold outR. replace (x - x) with 0 by lra. rewrite rnd_0, !Rmult_0_r, rnd_0, Rminus_0_r, (rnd_id i) by assumption. destruct p; rewrite Rplus_0_l; now apply rnd_id. }
  rewrite (clampR_id lo hi i) by assumption. constructor; [reflexivity|apply IH].
Qed.
Lemma hold_right dbg now0 d T Kp Ki Kd p lo hi u x vc ss :
  (1 <= T <= 2 ^ 24)%Z -> gain Kp -> gain Ki -> gain Kd -> moderate lo -> moderate hi -> moderate u -> moderate x -> f_lt lo hi = true -> f_le lo u = true -> f_le u hi = true ->
  ready dbg now0 d (setup T Kp Ki Kd p lo hi u x) vc ->
  Forall moderate_sample ss -> Forall (fun q => num (snd (fst q)) = num x /\ num (snd q) = num x) ss ->
  Forall (fun r => num (snd r) = num u) (outputs ss vc).
Proof.
  intros HT Gp Gi Gd Ml Mh Mu Mx Hl Hu Hu' R1 M1 F.
  pose proof (setup_sim _ _ _ _ _ _ _ _ _ _ _ _ _ HT Gp Gi Gd Ml Mh Mu Mx Hl R1) as S1. pose proof (limits_le _ _ Ml Mh Hl) as L.
  pose proof (run_sim _ _ _ _ _ _ _ _ Ml Mh L _ _ S1 M1) as E.
  rewrite le_val in Hu by (apply Ml || apply Mu). rewrite le_val in Hu' by (apply Mh || apply Mu).
  assert (val lo <= val u <= val hi) as B by (split; [destruct (Rle_bool_spec (val lo) (val u))|destruct (Rle_bool_spec (val u) (val hi))]; auto; discriminate).
  rewrite clampR_id in E by assumption.
  assert (Forall (fun r : bool * R => snd r = val u) (map (fun q => (fst q, val (snd q))) (outputs ss vc))) as H.
  { rewrite E. apply run_hold; [apply val_fmt|assumption|]. clear - F. induction F as [|a ss H F IH]; constructor; auto. }
  clear - H. induction (outputs ss vc) as [|a l IH]; [constructor|]. cbn [map] in H. inversion H; subst. constructor; [assumption|now apply IH].
Qed.

(** ** On integers *)
Lemma rndZ n : (Z.abs n <= 2 ^ 24)%Z -> rnd (IZR n) = IZR n. Proof. intros H. apply rnd_id, fmt_Z, H. Qed.
Lemma clampZ lo hi n : (lo <= hi)%Z -> clampR (IZR lo) (IZR hi) (IZR n) = IZR (limitZ lo hi n).
Proof.
  intros H. unfold clampR, limitZ. destruct (Rlt_bool_spec (IZR hi) (IZR n)) as [A|A]; [apply lt_IZR in A; f_equal; lia|]. apply le_IZR in A.
  destruct (Rlt_bool_spec (IZR n) (IZR lo)) as [B|B]; [apply lt_IZR in B|apply le_IZR in B]; f_equal; lia.
Qed.
Lemma errors_app a b : errors (a ++ b) = (errors a + errors b)%Z.
Proof. unfold errors. rewrite map_app. induction (map _ a) as [|c l IH]; [reflexivity|]. cbn [app fold_right]. lia. Qed.
Lemma reading_app x0 a s x : reading x0 (a ++ [(s, x)]) = x.
Proof. unfold reading. rewrite map_app. apply last_last. Qed.
Lemma sum_app p P I u x0 a s x : sumZ p P I u x0 (a ++ [(s, x)]) = (sumZ p P I u x0 a + I * (s - x) - match p with OnMeasurement => P * (x - reading x0 a) | OnError => 0 end)%Z.
Proof. unfold sumZ. rewrite errors_app, reading_app. change (errors [(s, x)]) with (s - x + 0)%Z. destruct p; ring. Qed.
Lemma scaled K e M : (Z.abs K * (2 * M) <= 2 ^ 21)%Z -> (Z.abs e <= 2 * M)%Z -> (Z.abs (K * e) <= 2 ^ 21)%Z.
Proof. intros A B. rewrite Z.abs_mul. nia. Qed.
Lemma sumR_Z p P I i l s x M : (Z.abs P * (2 * M) <= 2 ^ 21)%Z -> (Z.abs I * (2 * M) <= 2 ^ 21)%Z -> (Z.abs i <= 2 ^ 22)%Z -> (M <= 2 ^ 22)%Z -> (Z.abs l <= M)%Z -> (Z.abs s <= M)%Z -> (Z.abs x <= M)%Z ->
  sumR p (IZR P) (IZR I) (IZR i) (IZR l) (IZR s) (IZR x) = IZR (i + I * (s - x) - match p with OnMeasurement => P * (x - l) | OnError => 0 end).
Proof.
  intros BP BI Bi BM Bl Bs Bx. unfold sumR. rewrite <- !minus_IZR, !rndZ by lia.
  pose proof (scaled I (s - x) M BI ltac:(lia)). pose proof (scaled P (x - l) M BP ltac:(lia)).
  rewrite <- !mult_IZR, !rndZ by lia. rewrite <- plus_IZR, rndZ by lia. destruct p; [|f_equal; lia]. rewrite <- minus_IZR, rndZ by lia. reflexivity.
Qed.
Lemma outR_Z p P D i l s x M : (Z.abs P * (2 * M) <= 2 ^ 21)%Z -> (Z.abs D * (2 * M) <= 2 ^ 21)%Z -> (Z.abs i <= 2 ^ 22)%Z -> (M <= 2 ^ 22)%Z -> (Z.abs l <= M)%Z -> (Z.abs s <= M)%Z -> (Z.abs x <= M)%Z ->
  outR p (IZR P) (IZR D) (IZR i) (IZR l) (IZR s) (IZR x) = IZR (match p with OnError => P * (s - x) | OnMeasurement => 0 end + i - D * (x - l)).
Proof.
  intros BP BD Bi BM Bl Bs Bx. unfold outR. rewrite <- !minus_IZR, !rndZ by lia.
  pose proof (scaled D (x - l) M BD ltac:(lia)). pose proof (scaled P (s - x) M BP ltac:(lia)).
  rewrite <- !mult_IZR, !rndZ by lia. rewrite <- minus_IZR, rndZ by lia. destruct p.
  - rewrite <- (plus_IZR 0), rndZ by lia. f_equal; lia.
  - rewrite <- plus_IZR, rndZ by lia. f_equal. lia.
Qed.
Definition realsZ (q : Z * (Z * Z)) : Z * R * R := (fst q, IZR (fst (snd q)), IZR (snd (snd q))).
Lemma run_Z T p P I D lo hi M u x0 ss : (Z.abs P * (2 * M) <= 2 ^ 21)%Z -> (Z.abs I * (2 * M) <= 2 ^ 21)%Z -> (Z.abs D * (2 * M) <= 2 ^ 21)%Z -> (Z.abs lo <= 2 ^ 22)%Z -> (Z.abs hi <= 2 ^ 22)%Z -> (lo <= hi)%Z -> (M <= 2 ^ 22)%Z ->
  Forall (fun q : Z * (Z * Z) => Z.abs (fst (snd q)) <= M /\ Z.abs (snd (snd q)) <= M)%Z ss -> forall past o lt,
  (Z.abs (reading x0 past) <= M)%Z ->
  (forall n, (n <= length ss)%nat -> lo <= sumZ p P I u x0 (past ++ map snd (firstn n ss)) <= hi)%Z ->
  Forall (fun r => fst r = true) (runR T p (IZR P) (IZR I) (IZR D) (IZR lo) (IZR hi) (map realsZ ss) (IZR (sumZ p P I u x0 past), IZR (reading x0 past), o, lt)) ->
  forall n now s x, nth_error ss n = Some (now, (s, x)) ->
  nth_error (runR T p (IZR P) (IZR I) (IZR D) (IZR lo) (IZR hi) (map realsZ ss) (IZR (sumZ p P I u x0 past), IZR (reading x0 past), o, lt)) n
  = Some (true, IZR (pidZ p P I D lo hi u x0 (past ++ map snd (firstn n ss)) s x)).
Proof.
  intros BP BI BD Bl Bh L BM F. induction F as [|[now1 [s1 x1]] ss [B1 B2] F IH]; intros past o lt Br S1 Tk n now s x E; [destruct n; discriminate|].
  cbn [fst snd] in B1, B2. cbn [map realsZ fst snd runR stepR] in Tk |- *.
  assert (past ++ [(s1, x1)] = past ++ map snd (firstn 1 ((now1, (s1, x1)) :: ss))) as E1 by reflexivity.
  pose proof (S1 0%nat ltac:(lia)) as R0. cbn [firstn map] in R0. rewrite app_nil_r in R0.
  pose proof (S1 1%nat ltac:(cbn; lia)) as R1. rewrite <- E1 in R1. pose proof (sum_app p P I u x0 past s1 x1) as Es.
  destruct (kge _ _ _ _); [|cbn [fst snd] in Tk; inversion Tk; discriminate]. cbn [fst snd] in Tk |- *.
  rewrite (sumR_Z p P I _ _ _ _ M), <- Es, clampZ in Tk |- * by (assumption || lia).
  assert (limitZ lo hi (sumZ p P I u x0 (past ++ [(s1, x1)])) = sumZ p P I u x0 (past ++ [(s1, x1)])) as El by (unfold limitZ; lia). rewrite El in Tk |- *.
  rewrite (outR_Z p P D _ _ _ _ M), clampZ in Tk |- * by (assumption || lia).
  destruct n as [|n]; cbn [nth_error] in E |- *.
  - injection E as -> -> ->. cbn [firstn map]. rewrite app_nil_r. reflexivity.
  - inversion Tk as [|? ? _ Tk']; subst. assert (IZR x1 = IZR (reading x0 (past ++ [(s1, x1)]))) as Ex by (rewrite reading_app; reflexivity).
    rewrite Ex in Tk' |- *. cbn [firstn map snd].
    replace (past ++ (s1, x1) :: map snd (firstn n ss)) with ((past ++ [(s1, x1)]) ++ map snd (firstn n ss)) by (rewrite <- app_assoc; reflexivity).
    eapply IH; [rewrite reading_app; assumption| |eassumption|eassumption].
    intros k Hk. specialize (S1 (S k) ltac:(cbn [length]; lia)). cbn [firstn map snd] in S1. rewrite <- app_assoc. exact S1.
Qed.
Lemma seconds_one : val (seconds 1000) = 1. Proof. apply one_second. Qed.
Lemma gains_one Kp Ki Kd : (0 <= Kp <= 2 ^ 24)%Z -> (0 <= Ki <= 2 ^ 24)%Z -> (0 <= Kd <= 2 ^ 24)%Z ->
  gPR 1000 (f_ofZ Kp) (f_ofZ Ki) (f_ofZ Kd) = IZR Kp /\ gIR 1000 (f_ofZ Kp) (f_ofZ Ki) (f_ofZ Kd) = IZR Ki /\ gDR 1000 (f_ofZ Kp) (f_ofZ Ki) (f_ofZ Kd) = IZR Kd.
Proof.
  intros A B C. unfold gPR, gIR, gDR, per_sample. cbn [gP gI gD signed].
  destruct (ofZ_exact Kp) as [Vp _]; [lia|]. destruct (ofZ_exact Ki) as [Vi Fi]; [lia|]. destruct (ofZ_exact Kd) as [Vd Fd]; [lia|].
  destruct one_second as (V1 & F1 & S1). rewrite (mul_one _ _ Fi V1 F1 S1), (div_one _ _ Fd V1 F1 S1). auto.
Qed.
Lemma mod_Z n : (Z.abs n <= 2 ^ 24)%Z -> moderate (f_ofZ n).
Proof.
  intros H. destruct (ofZ_exact n H) as [V F]. split; [assumption|]. unfold num. fold (val (f_ofZ n)). rewrite V, <- abs_IZR. change (bpow radix2 40) with (IZR (2 ^ 40)). apply IZR_le. lia.
Qed.
Lemma gain_Z n : (0 <= n <= 2 ^ 24)%Z -> gain (f_ofZ n).
Proof. intros H. split; [apply mod_Z; lia|]. destruct (ofZ_exact n) as [V _]; [lia|]. unfold num. fold (val (f_ofZ n)). rewrite V. apply IZR_le. lia. Qed.
Lemma sgn_R d n : sR d * IZR n = IZR (sgn d * n). Proof. rewrite mult_IZR. destruct d; reflexivity. Qed.
Lemma abs_sgn d K : (0 <= K)%Z -> Z.abs (sgn d * K) = K. Proof. destruct d; cbn [sgn]; lia. Qed.
Lemma exact_right dbg now0 d Kp Ki Kd p lo hi u x0 M vc ss :
  (0 <= Kp)%Z -> (0 <= Ki)%Z -> (0 <= Kd)%Z -> (1 <= M <= 2 ^ 22)%Z -> (Kp * (2 * M) <= 2 ^ 21)%Z -> (Ki * (2 * M) <= 2 ^ 21)%Z -> (Kd * (2 * M) <= 2 ^ 21)%Z ->
  (- 2 ^ 22 <= lo < hi)%Z -> (hi <= 2 ^ 22)%Z -> (Z.abs x0 <= M)%Z ->
  Forall (fun q : Z * (Z * Z) => Z.abs (fst (snd q)) <= M /\ Z.abs (snd (snd q)) <= M)%Z ss ->
  ready dbg now0 d (setup 1000 (f_ofZ Kp) (f_ofZ Ki) (f_ofZ Kd) p (f_ofZ lo) (f_ofZ hi) (f_ofZ u) (f_ofZ x0)) vc ->
  Forall (fun r => fst r = true) (outputs (map floats ss) vc) ->
  (forall n, (n <= length ss)%nat -> lo <= sumZ p (sgn d * Kp) (sgn d * Ki) u x0 (map snd (firstn n ss)) <= hi)%Z ->
  forall n now s x, nth_error ss n = Some (now, (s, x)) -> exists o, nth_error (outputs (map floats ss) vc) n = Some (true, o) /\
    num o = IZR (pidZ p (sgn d * Kp) (sgn d * Ki) (sgn d * Kd) lo hi u x0 (map snd (firstn n ss)) s x).
Proof.
  intros P0 I0 D0 HM BP BI BD Hl Hh Hx F R1 Tk S1 n now s x E.
  assert (u = sumZ p (sgn d * Kp) (sgn d * Ki) u x0 []) as Eu by (unfold sumZ, errors, reading; cbn [map fold_right last]; destruct p; ring).
  pose proof (S1 0%nat ltac:(lia)) as Bu. cbn [firstn map] in Bu. rewrite <- Eu in Bu.
  assert (Kp <= 2 ^ 24)%Z by nia. assert (Ki <= 2 ^ 24)%Z by nia. assert (Kd <= 2 ^ 24)%Z by nia.
  assert (moderate (f_ofZ lo)) as Ml by (apply mod_Z; lia). assert (moderate (f_ofZ hi)) as Mh by (apply mod_Z; lia). assert (moderate (f_ofZ u)) as Mu by (apply mod_Z; lia). assert (moderate (f_ofZ x0)) as Mx by (apply mod_Z; lia).
  destruct (ofZ_exact lo) as [Vl _]; [lia|]. destruct (ofZ_exact hi) as [Vh _]; [lia|]. destruct (ofZ_exact u) as [Vu _]; [lia|]. destruct (ofZ_exact x0) as [Vx _]; [lia|].
  assert (f_lt (f_ofZ lo) (f_ofZ hi) = true) as Lt. { rewrite lt_val by (apply Ml || apply Mh). rewrite Vl, Vh. apply Rlt_bool_true, IZR_lt. lia. }
  pose proof (setup_sim _ _ _ 1000 _ _ _ _ _ _ _ _ _ ltac:(lia) (gain_Z Kp ltac:(lia)) (gain_Z Ki ltac:(lia)) (gain_Z Kd ltac:(lia)) Ml Mh Mu Mx Lt R1) as S0.
  destruct (gains_one Kp Ki Kd) as (-> & -> & ->) in S0; try lia.
  assert (Forall moderate_sample (map floats ss)) as Ms. { apply Forall_map. eapply Forall_impl; [|exact F]. intros [t [a b]] [A B]. cbn [fst snd] in A, B. split; apply mod_Z; cbn [fst snd]; lia. }
  pose proof (run_sim _ _ _ _ _ _ _ _ Ml Mh (limits_le _ _ Ml Mh Lt) _ _ S0 Ms) as Er.
  rewrite !sgn_R, Vl, Vh, Vu, Vx, clampZ in Er by lia. replace (limitZ lo hi u) with u in Er by (unfold limitZ; lia).
  assert (map reals (map floats ss) = map realsZ ss) as Em.
  { rewrite map_map. apply map_ext_in. intros [t [a b]] Hin. rewrite Forall_forall in F. specialize (F _ Hin). cbn [fst snd] in F. unfold reals, floats, realsZ. cbn [fst snd]. rewrite (proj1 (ofZ_exact a ltac:(lia))), (proj1 (ofZ_exact b ltac:(lia))). reflexivity. }
  rewrite Em in Er. change (IZR x0) with (IZR (reading x0 [])) in Er. rewrite Eu in Er at 1.
  assert (Forall (fun r : bool * R => fst r = true) (map (fun q => (fst q, val (snd q))) (outputs (map floats ss) vc))) as Tk' by (apply Forall_map; exact Tk).
  rewrite Er in Tk'.
  pose proof (run_Z 1000 p (sgn d * Kp) (sgn d * Ki) (sgn d * Kd) lo hi M u x0 ss) as Hr.
  specialize (Hr ltac:(rewrite abs_sgn; assumption) ltac:(rewrite abs_sgn; assumption) ltac:(rewrite abs_sgn; assumption) ltac:(lia) ltac:(lia) ltac:(lia) ltac:(lia) F [] _ _ Hx S1 Tk' n now s x E).
  rewrite <- Er in Hr. rewrite nth_error_map in Hr. destruct (nth_error (outputs (map floats ss) vc) n) as [[b o]|]; [|discriminate]. cbn [option_map fst snd] in Hr.
  assert (b = true /\ val o = IZR (pidZ p (sgn d * Kp) (sgn d * Ki) (sgn d * Kd) lo hi u x0 (map snd (firstn n ss)) s x)) as [-> Vo].
  { assert (forall (a a' : bool) (c c' : R), Some (a, c) = Some (a', c') -> a = a' /\ c = c') as K by (intros; split; congruence). apply K. exact Hr. }
  exists o. auto.
Qed.

(** ** The class PID *)
Lemma pid_do_calls dbg o p : outcome_map (fun p => (p_vars p, p_backend p)) (pid_do dbg o p) = ctl_calls dbg (calls_of (p_cfg p) o) (p_vars p, p_backend p).
Proof.
  destruct o; cbn [pid_do calls_of ctl_calls ctl_call bind].
  - unfold pid_initialize. destruct (set_output_limits _ _ _ _) as [v b] eqn:E. cbn [ctl_call bind outcome_map p_vars p_backend]. reflexivity.
  - reflexivity.
  - unfold pid_set_tunings. destruct (set_tunings _ _ _ _ _ _); reflexivity.
  - unfold pid_new_reading. cbn [ctl_call bind]. destruct (update _ _ _) as [[b v'] c'] eqn:U. reflexivity.
Qed.
Lemma pid_do_config dbg o p p' : pid_do dbg o p = Ok p' -> p_cfg p' = p_cfg p.
Proof. apply pid_do_cfg. Qed.
Lemma pid_run_calls dbg os : forall p, outcome_map (fun p => (p_vars p, p_backend p)) (pid_run dbg os p) = ctl_calls dbg (flat_map (calls_of (p_cfg p)) os) (p_vars p, p_backend p).
Proof.
  induction os as [|o os IH]; intros p; [reflexivity|]. cbn [pid_run flat_map]. rewrite calls_app, <- pid_do_calls.
  destruct (pid_do dbg o p) as [p'| | | |] eqn:E; try reflexivity. cbn [bind outcome_map]. rewrite <- (pid_do_config _ _ _ _ E). apply IH.
Qed.
Lemma pid_right dbg now cfg p0 : pid_new dbg now cfg = Ok p0 ->
  exists c0, ctl_new dbg now (tKp (c_tunings cfg)) (tKi (c_tunings cfg)) (tKd (c_tunings cfg)) OnMeasurement (c_dir cfg) = Ok c0 /\
  forall os, match pid_run dbg os p0 with
             | Ok p => exists v c, ctl_calls dbg (flat_map (calls_of cfg) os) (mkCells f_zero f_zero f_zero, c0) = Ok (v, c) /\ pid_response false p = Ok (output v)
             | Halt => ctl_calls dbg (flat_map (calls_of cfg) os) (mkCells f_zero f_zero f_zero, c0) = Halt
             | _ => False
             end.
Proof.
  intros E. pose proof (pid_new_cfg _ _ _ _ E) as Ec. unfold pid_new in E. destruct (ctl_new _ _ _ _ _ _ _) as [c0| | | |]; try discriminate. cbn [bind] in E. apply assert_ok, ok_inj in E.
  exists c0. split; [reflexivity|]. intros os. pose proof (pid_run_calls dbg os p0) as R. rewrite Ec in R. subst p0. cbn [p_vars p_backend] in R. rewrite <- R.
  assert (forall os p, pid_run dbg os p = Halt \/ exists p', pid_run dbg os p = Ok p') as K.
  { clear. induction os as [|o os IH]; intros p; cbn [pid_run]; [eauto|]. assert (pid_do dbg o p = Halt \/ exists p', pid_do dbg o p = Ok p') as [->|(p' & ->)]; [|left; reflexivity|apply IH].
    destruct o; cbn [pid_do]; eauto. unfold pid_set_tunings, set_tunings, sassert. destruct (_ && _), dbg, (kgt _ _ _ _); cbn [bind]; eauto. }
  destruct (K os (mkPid cfg c0 (mkCells f_zero f_zero f_zero))) as [->|(p & ->)]; cbn [outcome_map]; [reflexivity|]. exists (p_vars p), (p_backend p). split; [reflexivity|]. unfold pid_response, sassert. destruct (negb _); reflexivity.
Qed.
Lemma pid_do_vars dbg o p p' : pid_do dbg o p = Ok p' ->
  setpoint (p_vars p') = match o with PSetpoint x => x | _ => setpoint (p_vars p) end /\ input (p_vars p') = match o with PReading x _ => x | _ => input (p_vars p) end.
Proof.
  destruct o; cbn [pid_do]; intros E.
  - apply ok_inj in E. subst p'. unfold pid_initialize. destruct (set_output_limits _ _ _ _) as [v b] eqn:S1. cbn [p_vars]. unfold set_output_limits in S1.
    destruct (f_ge _ _); apply pair_equal_spec in S1; destruct S1 as [<- _]; split; reflexivity.
  - apply ok_inj in E. subst p'. split; reflexivity.
  - unfold pid_set_tunings in E. destruct (set_tunings _ _ _ _ _ _) as [b| | | |]; try discriminate. cbn [bind] in E. apply ok_inj in E. subst p'. split; reflexivity.
  - apply ok_inj in E. subst p'. unfold pid_new_reading. destruct (update _ _ _) as [[b v'] c'] eqn:U. cbn [p_vars]. destruct (update_only_input _ _ _ _ _ _ U) as (-> & -> & _). split; reflexivity.
Qed.
Lemma pid_run_vars dbg os : forall p p', pid_run dbg os p = Ok p' ->
  setpoint (p_vars p') = fold_left (fun s o => match o with PSetpoint x => x | _ => s end) os (setpoint (p_vars p)) /\ input (p_vars p') = fold_left (fun s o => match o with PReading x _ => x | _ => s end) os (input (p_vars p)).
Proof.
  induction os as [|o os IH]; intros p p' E; cbn [pid_run] in E; [apply ok_inj in E; subst p'; split; reflexivity|].
  destruct (pid_do dbg o p) as [p1| | | |] eqn:D; try discriminate. cbn [bind] in E. destruct (IH _ _ E) as [A B]. destruct (pid_do_vars _ _ _ _ D) as [A' B']. cbn [fold_left]. rewrite A, B, A', B'. split; reflexivity.
Qed.
Lemma error_right dbg now cfg p0 os p : pid_new dbg now cfg = Ok p0 -> pid_run dbg os p0 = Ok p -> moderate (last_setpoint os) -> moderate (latest os) ->
  num (pid_error p) = round radix2 (FLT_exp (3 - 128 - 24) 24) ZnearestE (Rabs (num (last_setpoint os) - num (latest os))).
Proof.
  intros N E Ms Mx. destruct (pid_run_vars _ _ _ _ E) as [A B]. unfold pid_new in N. destruct (ctl_new _ _ _ _ _ _ _) as [c0| | | |]; try discriminate. cbn [bind] in N. apply assert_ok, ok_inj in N. subst p0.
  cbn [p_vars setpoint input] in A, B. fold (last_setpoint os) in A. fold (latest os) in B. unfold pid_error. rewrite A, B.
  destruct (w_sub _ _ 40 Ms Mx) as [_ V]; [lia|]. unfold num, f_abs. rewrite B2R_Babs. fold (val (f_sub (last_setpoint os) (latest os))). rewrite V. symmetry. apply round_NE_abs. typeclasses eauto.
Qed.
