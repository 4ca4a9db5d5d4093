(** Proofs about the library on a clock that rolls around. *)
From Coq Require Import ZArith Bool List Lia Sorting.Sorted.
From Verif Require Import Base KTimeModel KTimeSpec KTimeProofs TimersModel TimersSpec TimersProofs LatchModel LatchSpec LatchProofs
  FloatModel PidModel StreamProofs VectorModel EvModel RollModel WrapModel WrapSpec.
Import ListNotations.
Open Scope Z_scope.

Lemma roll_range T : 0 <= arduino_millis T < 2 ^ 32.
Proof. unfold arduino_millis. apply Z.mod_pos_bound. reflexivity. Qed.
Lemma roll_turns T : T = arduino_millis T + 2 ^ 32 * turns T.
Proof. unfold arduino_millis, turns. pose proof (Z.div_mod T (2 ^ 32) ltac:(discriminate)). lia. Qed.
Lemma near24_2_32 : near24 (2 ^ 32) = 2 ^ 32. Proof. vm_compute. reflexivity. Qed.
Lemma near_reading r : 0 <= r < 2 ^ 32 -> near24 r <= 2 ^ 32 /\ Z.abs (near24 r - r) < 256.
Proof.
  intros H. split; [rewrite <- near24_2_32; apply near24_mono; lia|]. pose proof (near24_error r). change (2 ^ 32) with (2 ^ 24 * 256) in H. lia.
Qed.
Lemma near_span d : 0 <= d <= 2 ^ 32 -> Z.abs (near24 d - d) <= 256.
Proof. intros H. pose proof (near24_error d). change (2 ^ 32) with (2 ^ 24 * 256) in H. lia. Qed.

(** ** Timers *)
Lemma elapsed T0 T reset : let x := fst (time_since_last (arduino_millis T) reset (timer_new (arduino_millis T0))) in
  Z.abs (x - (T - T0 - 2 ^ 32 * (turns T - turns T0))) < 256.
Proof.
  cbv zeta. unfold time_since_last, timer_new, ksub. cbn [fst tlast]. rewrite from_other_same.
  pose proof (near_reading _ (roll_range T0)). pose proof (roll_turns T). pose proof (roll_turns T0). lia.
Qed.

Lemma alarm_turn dbg T0 d a Ts i T b : alarm_new dbg (arduino_millis T0) d false = Ok a -> 0 <= d <= 2 ^ 32 ->
  StronglySorted Z.le Ts -> Forall (fun T => turns T = turns T0) Ts ->
  nth_error Ts i = Some T -> nth_error (alarm_polls a (map arduino_millis Ts)) i = Some b ->
  (b = true -> T0 + d - T < 512) /\ (b = false -> T - (T0 + d) < 512).
Proof.
  intros Ha Hd Hs Hf HT Hb. apply alarm_new_ok in Ha. subst a.
  assert (Hs' : StronglySorted Z.le (map arduino_millis Ts)).
  { clear HT Hb. induction Hs as [|x l Hs IH Hx]; cbn [map]; constructor.
    - apply IH. now inversion Hf.
    - rewrite Forall_forall in *. intros y Hy. apply in_map_iff in Hy as (z & <- & Hz). specialize (Hx z Hz).
      pose proof (Hf x (or_introl eq_refl)). pose proof (Hf z (or_intror Hz)). pose proof (roll_turns x). pose proof (roll_turns z). lia. }
  rewrite alarm_exact in Hb by (auto; exact Hs'). rewrite nth_error_map in Hb. rewrite nth_error_map, HT in Hb.
  inversion Hb; subst b; clear Hb. cbn [afuture option_map].
  rewrite Forall_forall in Hf. pose proof (Hf T (nth_error_In _ _ HT)).
  pose proof (roll_turns T). pose proof (roll_turns T0). pose proof (near_reading _ (roll_range T)). pose proof (near_span d Hd).
  split; intros Hb; [apply Z.leb_le in Hb|apply Z.leb_gt in Hb]; lia.
Qed.

Lemma alarm_stays a ts : aexpired a = false -> 2 ^ 32 < afuture a -> Forall (fun t => 0 <= t < 2 ^ 32) ts ->
  alarm_polls a ts = repeat false (length ts).
Proof.
  intros Ha Hf. induction 1 as [|t ts Ht _ IH]; auto. rewrite alarm_polls_cons by auto. pose proof (near_reading t Ht).
  destruct (Z.leb_spec (afuture a) (near24 t)); [lia|]. cbn [length repeat]. now rewrite IH.
Qed.
Lemma all_readings Ts : Forall (fun t => 0 <= t < 2 ^ 32) (map arduino_millis Ts).
Proof. apply Forall_forall. intros t Ht. apply in_map_iff in Ht as (T & <- & _). apply roll_range. Qed.

Lemma alarm_never dbg T0 d a Ts : alarm_new dbg (arduino_millis T0) d false = Ok a -> 0 <= d <= 2 ^ 32 -> 2 ^ 32 + 256 < arduino_millis T0 + d ->
  alarm_polls a (map arduino_millis Ts) = repeat false (length Ts).
Proof.
  intros Ha Hd H. apply alarm_new_ok in Ha. subst a. rewrite <- (map_length arduino_millis Ts). apply alarm_stays; auto using all_readings.
  cbn [afuture]. pose proof (near_span d Hd). lia.
Qed.

Lemma itimer_stays i ts : Forall (fun t => t - near24 (iprev i) <= near24 (ival i)) ts -> itimer_polls i ts = repeat false (length ts).
Proof.
  induction 1 as [|t ts Ht _ IH]; auto. cbn [itimer_polls length repeat]. rewrite itimer_expired_eq.
  destruct (Z.ltb_spec (near24 (ival i)) (t - near24 (iprev i))); [lia|]. now rewrite IH.
Qed.

Lemma interval_never t Ts : 0 <= iprev t < 2 ^ 32 -> 2 ^ 32 + 256 <= itimer_future t ->
  itimer_polls t (map arduino_millis Ts) = repeat false (length Ts).
Proof.
  intros Hp Hf. rewrite <- (map_length arduino_millis Ts). apply itimer_stays. apply Forall_forall. intros x Hx.
  apply in_map_iff in Hx as (T & <- & _). pose proof (roll_range T). unfold itimer_future, kadd in Hf. rewrite from_other_same in Hf.
  pose proof (near_reading _ Hp). lia.
Qed.

(** ** Latch *)
Section Latch.
Variable F : Type.
Variable ltb : F -> F -> bool.
Variable cfg : LatchModel.config F.

Lemma reading_stuck r v l : r - near24 (tlast (lturned l)) < near24 (if lvalue l then min_on F cfg else min_off F cfg) ->
  new_reading F ltb cfg r v l = l.
Proof.
  intros H. unfold new_reading, time_since_last, ksub, klt. cbn [fst]. rewrite !from_other_same.
  destruct (lvalue l); cbn [andb negb];
    (destruct (Z.ltb_spec (r - near24 (tlast (lturned l))) (near24 (min_on F cfg))), (Z.ltb_spec (r - near24 (tlast (lturned l))) (near24 (min_off F cfg))); cbn [andb]; auto; lia).
Qed.
Lemma readings_stuck rs l : Forall (fun r => fst r - near24 (tlast (lturned l)) < near24 (if lvalue l then min_on F cfg else min_off F cfg)) rs ->
  readings F ltb cfg l rs = l.
Proof. induction 1 as [|[r v] rs Hr _ IH]; auto. cbn [readings]. rewrite reading_stuck by exact Hr. exact IH. Qed.
Lemma readings_app rs1 rs2 l : readings F ltb cfg l (rs1 ++ rs2) = readings F ltb cfg (readings F ltb cfg l rs1) rs2.
Proof. revert l. induction rs1 as [|[t v] rs1 IH]; intros l; cbn [readings app]; auto. Qed.
(** A reading that changes the output is the moment the latch turned *)
Lemma reading_turns r v l : lvalue (new_reading F ltb cfg r v l) <> lvalue l -> tlast (lturned (new_reading F ltb cfg r v l)) = r.
Proof.
  unfold new_reading, latch_set, timer_reset. intros H.
  repeat match goal with |- context [if ?c then _ else _] => destruct c; cbn [lvalue lturned tlast] in *; try congruence end.
Qed.

Definition wread (l : list (Z * F)) : list (Z * F) := map (fun r => (arduino_millis (fst r), snd r)) l.
Lemma latch_stuck l pre T1 v1 post : 
  let out rs := response (readings F ltb cfg l (wread rs)) in
  out (pre ++ [(T1, v1)]) <> out pre ->
  let least := if out (pre ++ [(T1, v1)]) then min_on F cfg else min_off F cfg in
  0 <= least <= 2 ^ 32 -> Forall (fun r => turns (fst r) = turns T1 + 1 /\ fst r - T1 + 512 < 2 ^ 32 + least) post ->
  out (pre ++ (T1, v1) :: post) = out (pre ++ [(T1, v1)]).
Proof.
  cbv zeta. unfold response, wread. intros H Hl Hf.
  replace (pre ++ (T1, v1) :: post) with ((pre ++ [(T1, v1)]) ++ post) by (rewrite <- app_assoc; reflexivity).
  rewrite map_app, readings_app. f_equal. apply readings_stuck.
  rewrite map_app, readings_app in H, Hl, Hf |- *. set (l0 := readings F ltb cfg l (map _ pre)) in *.
  change (readings F ltb cfg l0 (map (fun r : Z * F => (arduino_millis (fst r), snd r)) [(T1, v1)])) with (new_reading F ltb cfg (arduino_millis T1) v1 l0) in *.
  pose proof (reading_turns _ _ _ H) as HT. rewrite HT. apply Forall_forall. intros x Hx. apply in_map_iff in Hx as (r & <- & Hr).
  rewrite Forall_forall in Hf. destruct (Hf r Hr) as [H1 H2]. cbn [fst].
  pose proof (near_reading _ (roll_range T1)). pose proof (near_span _ Hl). pose proof (roll_turns (fst r)). pose proof (roll_turns T1). lia.
Qed.

(** Within one turn *)
Lemma wread_rising T0 rs : later T0 rs -> Forall (fun r => turns (fst r) = turns T0) rs -> rising F (arduino_millis T0) (wread rs).
Proof.
  induction 1 as [T0|T0 T v rs HT _ IH]; intros Hf; [constructor|]. inversion Hf as [|? ? Hx Hr]; subst. cbn [fst] in Hx.
  unfold wread. cbn [map fst snd]. constructor.
  - pose proof (roll_turns T). pose proof (roll_turns T0). lia.
  - apply IH. rewrite Forall_forall in *. intros y Hy. rewrite Hx. apply Hr; auto.
Qed.
Lemma latch_turn : nonneg F cfg -> min_on F cfg <= 2 ^ 32 -> min_off F cfg <= 2 ^ 32 -> forall T0 pre T1 v1 mid T2 v2,
  later T0 (pre ++ (T1, v1) :: mid ++ [(T2, v2)]) -> Forall (fun r => turns (fst r) = turns T0) (pre ++ (T1, v1) :: mid ++ [(T2, v2)]) ->
  let out rs := response (readings F ltb cfg (latch_new F cfg (arduino_millis T0)) (wread rs)) in
  let least := if out (pre ++ (T1, v1) :: mid) then min_on F cfg else min_off F cfg in
  out (pre ++ [(T1, v1)]) <> out pre ->
  out (pre ++ (T1, v1) :: mid ++ [(T2, v2)]) <> out (pre ++ (T1, v1) :: mid) ->
  least - (T2 - T1) < 512.
Proof.
  intros Hn Hon Hoff T0 pre T1 v1 mid T2 v2 Hl Hf. cbv zeta. intros H1 H2.
  pose proof (wread_rising T0 _ Hl Hf) as HR. pose proof (roll_range T0).
  unfold wread in *. rewrite !map_app in *. cbn [map fst snd] in *. rewrite !map_app in *. cbn [map fst snd] in *.
  pose proof (switch_gap_any F ltb cfg Hn _ _ _ _ _ _ _ (proj1 H) HR H1 H2) as G. cbv zeta in G.
  assert (E1 : turns T1 = turns T0) by (apply (proj1 (Forall_forall _ _) Hf (T1, v1)); apply in_elt).
  assert (E2 : turns T2 = turns T0).
  { apply (proj1 (Forall_forall _ _) Hf (T2, v2)). apply in_or_app. right. right. apply in_or_app. right. left. reflexivity. }
  pose proof (roll_turns T1). pose proof (roll_turns T2). pose proof (roll_range T2). change (2 ^ 32) with (2 ^ 24 * 256) in *.
  unfold minimal in G. destruct (response _) in G |- *; lia.
Qed.
End Latch.

(** ** PID controller *)
Lemma update_stuck r v c : r - near24 (last_time c) < near24 (sampling c) -> update r v c = (false, v, c).
Proof.
  intros H. unfold update, kge, ksub. rewrite !from_other_same. 
  destruct (Z.leb_spec (near24 (sampling c)) (r - near24 (last_time c))); [lia|]. reflexivity.
Qed.
Definition idle_call (T1 s : Z) (o : call) : Prop :=
  match o with
  | SetInput _ | SetSetpoint _ | Tunings _ _ _ _ | Direction _ => True
  | Update r => exists T, r = arduino_millis T /\ turns T = turns T1 + 1 /\ T - T1 + 512 < 2 ^ 32 + s
  | _ => False
  end.
Lemma set_direction_time d c : last_time (set_direction d c) = last_time c /\ sampling (set_direction d c) = sampling c.
Proof. unfold set_direction. destruct (same_direction _ _); auto. Qed.
Lemma set_tunings_time dbg a b d p c c' : set_tunings dbg a b d p c = Ok c' -> last_time c' = last_time c /\ sampling c' = sampling c.
Proof. unfold set_tunings. intros H. apply bind_ok in H as (? & _ & H). apply bind_ok in H as (? & _ & H). inversion H; subst. auto. Qed.
Lemma pid_stuck dbg T1 v c v1 c1 os v2 c2 : update (arduino_millis T1) v c = (true, v1, c1) -> 0 <= sampling c <= 2 ^ 32 ->
  Forall (idle_call T1 (sampling c)) os -> ctl_calls dbg os (v1, c1) = Ok (v2, c2) -> output v2 = output v1.
Proof.
  intros Hu Hs. assert (Hc : last_time c1 = arduino_millis T1 /\ sampling c1 = sampling c).
  { unfold update in Hu. destruct (kge _ _ _ _) in Hu; inversion Hu; subst; auto. }
  clear Hu. revert v1 c1 Hc. induction os as [|o os IH]; intros v1 c1 [Hl Hp] Hf H.
  - cbn [ctl_calls] in H. inversion H; subst; auto.
  - inversion Hf as [|? ? Ho Hf']; subst. cbn [ctl_calls] in H. apply bind_ok in H as ([v' c'] & Hx & H).
    assert (G : output v' = output v1 /\ last_time c' = arduino_millis T1 /\ sampling c' = sampling c).
    { destruct o; cbn [ctl_call idle_call] in *; try contradiction.
      - inversion Hx; subst; auto.
      - inversion Hx; subst; auto.
      - destruct Ho as (T & -> & H1 & H2). rewrite update_stuck in Hx; [inversion Hx; subst; auto|].
        rewrite Hl, Hp. pose proof (near_reading _ (roll_range T1)). pose proof (near_span _ Hs). pose proof (roll_turns T). pose proof (roll_turns T1). lia.
      - apply bind_ok in Hx as (c3 & Ht & Hx). inversion Hx; subst. apply set_tunings_time in Ht as [-> ->]. auto.
      - inversion Hx; subst. destruct (set_direction_time d c1) as [-> ->]. auto. }
    destruct G as (G1 & G2 & G3). rewrite <- G1. apply (IH v' c'); auto.
Qed.

(** ** Event system *)
Section Ev.
Variable D : Type.
Variable nodata : D.
Variable W : Z.
Variable L : nat.
Variable dbg : bool.
Variable cfg : EvModel.config.
Variable beh : list (entry D) -> list (act D).
Notation es := (es D).

Definition alarm_in (a : alarm) : Prop := aexpired a = true -> afuture a <= 2 ^ 32.
Definition entry_in (x : entry D) : Prop := match x with LFire _ due _ _ _ => due <= 2 ^ 32 | _ => True end.
Definition WI (s : es) : Prop := Forall (fun e => alarm_in (e_timer D e)) (s_objs D s) /\ Forall entry_in (s_log D s).
Definition WN (s : es) : Prop := WI s /\ 0 <= s_now D s < 2 ^ 32.

Lemma wi_log x s : entry_in x -> WI s -> WI (log_add D x s).
Proof. intros H [H1 H2]. split; auto. cbn [log_add s_log]. apply Forall_app. split; auto. Qed.
Lemma wi_obj o e s : alarm_in (e_timer D e) -> WI s -> WI (set_obj D o e s).
Proof.
  intros H [H1 H2]. split; auto. cbn [set_obj s_objs]. apply Forall_forall. intros x Hx. apply In_nth_error in Hx as [n Hn].
  rewrite Forall_forall in H1. rewrite nth_error_upd in Hn. destruct ((o =? n)%nat && (n <? length (s_objs D s))%nat).
  - inversion Hn; subst; auto.
  - apply H1. eapply nth_error_In; eauto.
Qed.
Lemma wi_same s s' : s_objs D s' = s_objs D s -> s_log D s' = s_log D s -> WI s -> WI s'.
Proof. intros E1 E2 [H1 H2]. split; rewrite ?E1, ?E2; auto. Qed.
Lemma wi_deref s p e : WI s -> deref D s p = Ok e -> alarm_in (e_timer D e).
Proof.
  intros [H _] E. unfold deref in E. destruct p as [o|]; [|discriminate]. destruct (nth_error (s_objs D s) o) eqn:En; [|discriminate].
  inversion E; subst. rewrite Forall_forall in H. apply H. eapply nth_error_In; eauto.
Qed.
Lemma wi_expired r a b a' : 0 <= r < 2 ^ 32 -> alarm_in a -> alarm_expired r a = (b, a') ->
  alarm_in a' /\ afuture a' = afuture a /\ (b = true -> afuture a <= 2 ^ 32).
Proof.
  intros Hr Ha E. unfold alarm_expired, kle in E. rewrite from_other_same in E. pose proof (near_reading r Hr) as [Hn _].
  destruct (aexpired a) eqn:Ea; [inversion E; subst; splits; auto|].
  destruct (Z.leb_spec (afuture a) (near24 r)); inversion E; subst; splits; auto; try discriminate; unfold alarm_in; cbn [afuture]; intros; lia.
Qed.

Lemma wi_event id t d s o s' : event D L dbg id t d s = Ok (o, s') -> WI s -> WI s' /\ s_now D s' = s_now D s.
Proof.
  unfold event. intros E H. apply bind_ok in E as ([p pl] & _ & E). apply bind_ok in E as (? & _ & E). destruct p as [n|].
  - destruct (nth_error _ _) as [e|] eqn:En in E; [|discriminate]. inversion E; subst; clear E. split; [|reflexivity].
    eapply wi_same; [..|apply (wi_obj n (mkEv D id d t (e_timer D e)))]; try reflexivity.
    + cbn [e_timer]. cbn [s_objs] in En. destruct H as [H _]. rewrite Forall_forall in H. apply H. eapply nth_error_In; eauto.
    + eapply wi_same; [..|exact H]; reflexivity.
  - inversion E; subst. split; [|reflexivity]. eapply wi_same; [..|exact H]; reflexivity.
Qed.
Lemma wi_attach id h s s' : attach D W dbg cfg id h s = Ok s' -> WI s -> WI s' /\ s_now D s' = s_now D s.
Proof.
  unfold attach. intros E H. apply bind_ok in E as (? & _ & E). destruct (nth_error (s_map D s) id); [|discriminate].
  apply bind_ok in E as (? & _ & E). apply bind_ok in E as (v' & _ & E). inversion E; subst. split; [|reflexivity].
  eapply wi_same; [..|exact H]; reflexivity.
Qed.
Lemma ok_inj A (a b : A) : Ok a = Ok b -> a = b. Proof. congruence. Qed.
Lemma wi_push o s s' : push D W dbg o s = Ok s' -> WI s -> WI s' /\ s_now D s' = s_now D s.
Proof.
  unfold push. cbv zeta. intros E H. apply bind_ok in E as (? & _ & E). apply bind_ok in E as (e & He & E).
  apply bind_ok in E as (? & _ & E). apply bind_ok in E as (a & Ha & E). apply bind_ok in E as (i & _ & E). apply bind_ok in E as (v & _ & E).
  apply ok_inj in E. subst s'. apply alarm_new_ok in Ha.
  split; [|destruct o; reflexivity]. apply wi_log; [exact I|]. eapply wi_same; [reflexivity|reflexivity|].
  destruct o as [n|]; auto. apply wi_obj; auto. cbn [e_timer]. subst a. intros Hx. discriminate.
Qed.
Lemma wi_release (o : option nat) s : WI s -> WI (match o with Some n => release D n s | None => s end).
Proof. destruct o; auto. Qed.
Lemma now_release (o : option nat) (s : es) : s_now D (match o with Some n => release D n s | None => s end) = s_now D s.
Proof. destruct o; reflexivity. Qed.
Lemma wi_schedule id t d s s' : schedule D W L dbg id t d s = Ok s' -> WI s -> WI s' /\ s_now D s' = s_now D s.
Proof.
  unfold schedule. intros E H. apply bind_ok in E as ([o s1] & E1 & E). apply bind_ok in E as (s2 & E2 & E). inversion E; subst.
  apply wi_event in E1 as [H1 N1]; auto. apply wi_push in E2 as [H2 N2]; auto. split; [apply wi_release; auto|]. rewrite (now_release o s2). congruence.
Qed.
Lemma wi_keep_ptr o x s : WI s -> WI (keep_ptr D o x s).
Proof. intros H. unfold keep_ptr. apply wi_log; [exact I|]. eapply wi_same; [reflexivity|reflexivity|]. apply (wi_release o). exact H. Qed.
Lemma now_keep_ptr o x (s : es) : s_now D (keep_ptr D o x s) = s_now D s.
Proof. destruct o; reflexivity. Qed.
Lemma wi_take_ptr k s o s' : take_ptr D k s = Ok (o, s') -> WI s -> WI s' /\ s_now D s' = s_now D s.
Proof.
  unfold take_ptr. intros E H. destruct (nth_error (s_kept D s) k) as [p|]; [|discriminate]. inversion E; subst. split.
  - assert (G : WI (log_add D (LTake D k (look D s o)) (set_kept D (firstn k (s_kept D s) ++ skipn (S k) (s_kept D s)) s))).
    { apply wi_log; [exact I|]. eapply wi_same; [..|exact H]; reflexivity. }
    destruct o; auto.
  - destruct o; reflexivity.
Qed.
Lemma wi_keep_event id t d s s' : keep_event D L dbg id t d s = Ok s' -> WI s -> WI s' /\ s_now D s' = s_now D s.
Proof.
  unfold keep_event. intros E H. apply bind_ok in E as ([o s1] & E1 & E). inversion E; subst. apply wi_event in E1 as [H1 N1]; auto.
  split; [apply wi_keep_ptr; auto|]. rewrite now_keep_ptr. auto.
Qed.
Lemma wi_schedule_kept k s s' : schedule_kept D W dbg k s = Ok s' -> WI s -> WI s' /\ s_now D s' = s_now D s.
Proof.
  unfold schedule_kept. intros E H. apply bind_ok in E as ([o s1] & E1 & E). apply bind_ok in E as (s2 & E2 & E). inversion E; subst.
  apply wi_take_ptr in E1 as [H1 N1]; auto. apply wi_push in E2 as [H2 N2]; auto. split; [apply wi_release; auto|]. rewrite (now_release o s2). congruence.
Qed.
Lemma wi_drop_kept k s s' : drop_kept D k s = Ok s' -> WI s -> WI s' /\ s_now D s' = s_now D s.
Proof.
  unfold drop_kept. intros E H. apply bind_ok in E as ([o s1] & E1 & E). inversion E; subst. apply wi_take_ptr in E1 as [H1 N1]; auto.
  split; [apply wi_release; auto|]. rewrite (now_release o s1). auto.
Qed.

Section Calls.
Variable rec : act D -> es -> outcome es.
Hypothesis Hrec : forall a s s', rec a s = Ok s' -> WN s -> WN s'.
Lemma wn_acts l s s' : do_acts D rec l s = Ok s' -> WN s -> WN s'.
Proof.
  revert s. induction l as [|a l IH]; intros s E H; cbn [do_acts] in E; [inversion E; subst; auto|].
  apply bind_ok in E as (s1 & E1 & E). eapply IH; eauto.
Qed.
Lemma wn_log x s : entry_in x -> WN s -> WN (log_add D x s).
Proof. intros Hx [H N]. split; [apply wi_log; auto|exact N]. Qed.
Lemma wn_calls id d k i s s' : call_handlers D beh rec id d k i s = Ok s' -> WN s -> WN s'.
Proof.
  revert i s. induction k as [|k IH]; intros i s E H; cbn [call_handlers] in E; [inversion E; subst; auto|].
  destruct (nth_error (s_map D s) id) as [v|]; [|discriminate]. apply bind_ok in E as (h & _ & E). destruct h as [n|]; [|discriminate].
  cbv zeta in E. apply bind_ok in E as (s2 & E2 & E). eapply IH; [exact E|]. eapply wn_acts; [exact E2|]. apply wn_log; [exact I|auto].
Qed.
Lemma wn_trigger id d s s' : trigger_ev D dbg beh rec id d s = Ok s' -> WN s -> WN s'.
Proof.
  unfold trigger_ev. intros E H. apply bind_ok in E as (? & _ & E). destruct (nth_error (s_map D s) id); [|discriminate].
  apply bind_ok in E as (? & _ & E). eapply wn_calls; eauto.
Qed.
Lemma wn_trigger_kept k s s' : trigger_kept D dbg beh rec k s = Ok s' -> WN s -> WN s'.
Proof.
  unfold trigger_kept. intros E [H N]. apply bind_ok in E as ([o s1] & E1 & E). apply bind_ok in E as (? & _ & E). apply bind_ok in E as (e & _ & E).
  apply bind_ok in E as (s2 & E2 & E). inversion E; subst. apply wi_take_ptr in E1 as [H1 N1]; auto.
  apply wn_trigger in E2 as [H2 N2]; [|split; auto; rewrite N1; auto]. split; [apply wi_keep_ptr; auto|rewrite now_keep_ptr; auto].
Qed.
Lemma wn_contains s b s' : contains_expired D dbg s = Ok (b, s') -> WN s -> WN s'.
Proof.
  unfold contains_expired. intros E [H N]. destruct (vempty (s_pipe D s)); [inversion E; subst; split; auto|].
  apply bind_ok in E as (p & _ & E). apply bind_ok in E as (e & He & E).
  destruct (alarm_expired (s_now D s) (e_timer D e)) as [b' a] eqn:Ea. inversion E; subst.
  apply wi_expired in Ea as (A1 & _ & _); auto; [|eapply wi_deref; eauto]. split; [destruct p; auto; apply wi_obj; auto|destruct p; auto].
Qed.
Lemma wn_expire s p s' : expire D dbg s = Ok (p, s') -> WN s ->
  WN s' /\ (forall e, deref D s' p = Ok e -> afuture (e_timer D e) <= 2 ^ 32).
Proof.
  unfold expire. intros E [H N]. apply bind_ok in E as (? & _ & E). destruct (vempty (s_pipe D s)).
  { inversion E; subst. split; [split; auto|]. intros e He. discriminate. }
  apply bind_ok in E as ([q v] & _ & E). cbv zeta in E. apply bind_ok in E as (? & _ & E). apply bind_ok in E as (e & He & E).
  assert (H1 : WI (set_pipe D v s)) by (eapply wi_same; [..|exact H]; reflexivity).
  destruct (alarm_expired _ (e_timer D e)) as [b a] eqn:Ea in E.
  apply wi_expired in Ea as (A1 & A2 & A3); [|exact N|eapply wi_deref; eauto].
  apply bind_ok in E as (? & _ & E).
  destruct q as [n|]; [|cbn [deref] in He; discriminate].
  assert (H2 : WI (set_obj D n (mkEv D (e_id D e) (e_data D e) (e_tfn D e) a) (set_pipe D v s))) by (apply wi_obj; auto).
  destruct b; inversion E; subst.
  - split; [split; [eapply wi_same; [..|exact H2]; reflexivity|exact N]|].
    intros e' He'. unfold deref in He, He'. cbn [hold set_obj set_pipe s_objs] in *. destruct (nth_error (s_objs D s) n) eqn:En; [|discriminate].
    rewrite nth_error_upd_eq in He' by (apply nth_error_Some; congruence). inversion He'; subst. cbn [e_timer]. rewrite A2. auto.
  - split; [split; auto|]. intros e' He'. discriminate.
Qed.
Lemma wi_tick s s' : tick_delay D dbg cfg s = Ok s' -> WI s -> WI s'.
Proof.
  unfold tick_delay. intros E H. destruct (c_delay cfg); [|inversion E; subst; auto]. apply bind_ok in E as (ms & _ & E). inversion E; subst.
  eapply wi_same; [..|apply (wi_log (LSleep D ms) s I H)]; reflexivity.
Qed.
Lemma wi_loop s s' : loop_with D dbg cfg beh rec s = Ok s' -> WN s -> WI s'.
Proof.
  unfold loop_with. intros E H. apply bind_ok in E as ([b s1] & E1 & E). apply wn_contains in E1 as H1; auto. destruct b.
  - apply bind_ok in E as ([p s2] & E2 & E). apply wn_expire in E2 as [H2 F2]; auto. apply bind_ok in E as (? & _ & E).
    apply bind_ok in E as (e & He & E). cbv zeta in E. apply bind_ok in E as (s4 & E4 & E).
    apply wn_trigger in E4; [|apply wn_log; auto; cbn [entry_in]; apply F2; auto].
    apply Hrec in E; [exact (proj1 E)|]. destruct E4 as [H4 N4]. split; [apply wi_release; auto|rewrite (now_release p s4); auto].
  - eapply wi_tick; [exact E|exact (proj1 H1)].
Qed.
End Calls.

Lemma wn_turn s : WI s -> WN (turn D s).
Proof. intros H. split; [eapply wi_same; [..|exact H]; reflexivity|]. apply roll_range. Qed.
Lemma wn_act fuel : forall a s s', wact D W L dbg cfg beh fuel a s = Ok s' -> WN s -> WN s'.
Proof.
  induction fuel as [|f IH]; intros a s s' E H; cbn [wact] in E; apply bind_ok in E as (s1 & E1 & E); inversion E; subst; clear E; apply wn_turn;
    destruct a as [id t d|id d|id h|dt| |id t d|k|k|k];
    try discriminate;
    try (eapply wi_schedule; [exact E1|exact (proj1 H)]); try (eapply wi_attach; [exact E1|exact (proj1 H)]);
    try (eapply wi_keep_event; [exact E1|exact (proj1 H)]); try (eapply wi_schedule_kept; [exact E1|exact (proj1 H)]);
    try (eapply wi_drop_kept; [exact E1|exact (proj1 H)]);
    try (inversion E1; subst; eapply wi_same; [..|exact (proj1 H)]; reflexivity).
  - eapply (wi_loop (fun _ _ => Fuel)); [|exact E1|exact H]. discriminate.
  - apply bind_ok in E1 as ([o s2] & E2 & E1). destruct o as [n|].
    + apply bind_ok in E1 as (s3 & E3 & E1). inversion E1; subst. apply wi_event in E2 as [H2 N2]; [|exact (proj1 H)].
      eapply (wn_trigger (wact D W L dbg cfg beh f)) in E3; [|exact IH|split; [auto|rewrite N2; exact (proj2 H)]].
      eapply wi_same; [..|exact (proj1 E3)]; reflexivity.
    + apply bind_ok in E1 as (? & _ & E1). discriminate.
  - eapply (wi_loop (wact D W L dbg cfg beh f)); eauto.
  - eapply (wn_trigger_kept (wact D W L dbg cfg beh f)) in E1; [exact (proj1 E1)|exact IH|exact H].
Qed.
Lemma wn_run fuel acts : forall s s', wrun D W L dbg cfg beh fuel acts s = Ok s' -> WN s -> WN s'.
Proof.
  induction acts as [|a acts IH]; intros s s' E H; cbn [wrun] in E; [inversion E; subst; auto|].
  apply bind_ok in E as (s1 & E1 & E). eapply IH; [exact E|]. eapply wn_act; eauto.
Qed.
Lemma event_never fuel acts T0 s : wrun D W L dbg cfg beh fuel acts (es_new D nodata cfg (arduino_millis T0)) = Ok s ->
  forall due id d now, In (LFire D due id d now) (s_log D s) -> due <= 2 ^ 32.
Proof.
  intros E due id d now HI. assert (H : WN (es_new D nodata cfg (arduino_millis T0))).
  { split; [|apply roll_range]. split; [|constructor]. apply Forall_forall. intros e He. apply repeat_spec in He. subst e. intros Hx. discriminate. }
  apply wn_run in E as [[_ H2] _]; auto. rewrite Forall_forall in H2. apply (H2 _ HI).
Qed.

(** ** Until the clock rolls around, all is as on one that does not *)
Hypothesis Hidle : 0 <= kconv MS US (c_min_us cfg).
Lemma now_event id t d s o s' : event D L dbg id t d s = Ok (o, s') -> s_now D s' = s_now D s.
Proof.
  unfold event. intros E. apply bind_ok in E as ([p pl] & _ & E). apply bind_ok in E as (? & _ & E). destruct p as [n|].
  - destruct (nth_error _ _) in E; inversion E; subst; reflexivity.
  - inversion E; subst; reflexivity.
Qed.
Lemma now_attach id h s s' : attach D W dbg cfg id h s = Ok s' -> s_now D s' = s_now D s.
Proof.
  unfold attach. intros E. apply bind_ok in E as (? & _ & E). destruct (nth_error (s_map D s) id); [|discriminate].
  apply bind_ok in E as (? & _ & E). apply bind_ok in E as (v' & _ & E). inversion E; subst. reflexivity.
Qed.
Lemma now_push o s s' : push D W dbg o s = Ok s' -> s_now D s' = s_now D s.
Proof.
  unfold push. cbv zeta. intros E. apply bind_ok in E as (? & _ & E). apply bind_ok in E as (e & _ & E).
  apply bind_ok in E as (? & _ & E). apply bind_ok in E as (a & _ & E). apply bind_ok in E as (i & _ & E). apply bind_ok in E as (v & _ & E).
  apply ok_inj in E. subst s'. destruct o; reflexivity.
Qed.
Lemma now_schedule id t d s s' : schedule D W L dbg id t d s = Ok s' -> s_now D s' = s_now D s.
Proof.
  unfold schedule. intros E. apply bind_ok in E as ([o s1] & E1 & E). apply bind_ok in E as (s2 & E2 & E). apply ok_inj in E. subst s'.
  rewrite (now_release o s2). apply now_event in E1. apply now_push in E2. congruence.
Qed.
Lemma now_take_ptr k s o s' : take_ptr D k s = Ok (o, s') -> s_now D s' = s_now D s.
Proof. unfold take_ptr. destruct (nth_error (s_kept D s) k) as [p|]; [|discriminate]. intros E. inversion E; subst. destruct o; reflexivity. Qed.
Lemma now_keep_event id t d s s' : keep_event D L dbg id t d s = Ok s' -> s_now D s' = s_now D s.
Proof.
  unfold keep_event. intros E. apply bind_ok in E as ([o s1] & E1 & E). apply ok_inj in E. subst s'. rewrite now_keep_ptr. eapply now_event; eauto.
Qed.
Lemma now_schedule_kept k s s' : schedule_kept D W dbg k s = Ok s' -> s_now D s' = s_now D s.
Proof.
  unfold schedule_kept. intros E. apply bind_ok in E as ([o s1] & E1 & E). apply bind_ok in E as (s2 & E2 & E). apply ok_inj in E. subst s'.
  rewrite (now_release o s2). apply now_take_ptr in E1. apply now_push in E2. congruence.
Qed.
Lemma now_drop_kept k s s' : drop_kept D k s = Ok s' -> s_now D s' = s_now D s.
Proof.
  unfold drop_kept. intros E. apply bind_ok in E as ([o s1] & E1 & E). apply ok_inj in E. subst s'. rewrite (now_release o s1). eapply now_take_ptr; eauto.
Qed.
Lemma now_contains s b s' : contains_expired D dbg s = Ok (b, s') -> s_now D s' = s_now D s.
Proof.
  unfold contains_expired. destruct (vempty (s_pipe D s)); [intros E; inversion E; subst; auto|]. intros E.
  apply bind_ok in E as (p & _ & E). apply bind_ok in E as (e & _ & E). destruct (alarm_expired _ _). inversion E; subst. destruct p; reflexivity.
Qed.
Lemma now_expire s p s' : expire D dbg s = Ok (p, s') -> s_now D s' = s_now D s.
Proof.
  unfold expire. intros E. apply bind_ok in E as (? & _ & E). destruct (vempty (s_pipe D s)); [inversion E; subst; auto|].
  apply bind_ok in E as ([q v] & _ & E). cbv zeta in E. apply bind_ok in E as (? & _ & E). apply bind_ok in E as (e & _ & E).
  destruct (alarm_expired _ (e_timer D e)) as [b a] in E. apply bind_ok in E as (? & _ & E).
  destruct q, b; inversion E; subst; reflexivity.
Qed.
Lemma now_tick s s' : tick_delay D dbg cfg s = Ok s' -> s_now D s <= s_now D s'.
Proof.
  unfold tick_delay. intros E. destruct (c_delay cfg); [|inversion E; subst; lia]. apply bind_ok in E as (ms & Hm & E). apply ok_inj in E. subst s'.
  cbn [advance log_add s_now]. destruct (vempty (s_pipe D s)); [apply ok_inj in Hm; subst ms; lia|]. apply bind_ok in Hm as (u & _ & Hm).
  apply ok_inj in Hm. subst ms.
  pose proof (Z.mod_pos_bound (Z.min u (c_max_us cfg)) (2 ^ 32) ltac:(reflexivity)). lia.
Qed.

Section Same.
Variable rec wrec : act D -> es -> outcome es.
Hypothesis Hmono : forall a s s', rec a s = Ok s' -> s_now D s <= s_now D s'.
Hypothesis Hsame : forall a s s', rec a s = Ok s' -> 0 <= s_now D s -> s_now D s' < 2 ^ 32 -> wrec a s = Ok s'.
Lemma mono_acts l s s' : do_acts D rec l s = Ok s' -> s_now D s <= s_now D s'.
Proof.
  revert s. induction l as [|a l IH]; intros s E; cbn [do_acts] in E; [inversion E; subst; lia|].
  apply bind_ok in E as (s1 & E1 & E). apply Hmono in E1. apply IH in E. lia.
Qed.
Lemma same_acts l s s' : do_acts D rec l s = Ok s' -> 0 <= s_now D s -> s_now D s' < 2 ^ 32 -> do_acts D wrec l s = Ok s'.
Proof.
  revert s. induction l as [|a l IH]; intros s E H0 H1; cbn [do_acts] in *; auto.
  apply bind_ok in E as (s1 & E1 & E). pose proof (Hmono _ _ _ E1). pose proof (mono_acts _ _ _ E).
  rewrite (Hsame _ _ _ E1) by lia. cbn [bind]. apply IH; auto; lia.
Qed.
Lemma mono_calls id d k i s s' : call_handlers D beh rec id d k i s = Ok s' -> s_now D s <= s_now D s'.
Proof.
  revert i s. induction k as [|k IH]; intros i s E; cbn [call_handlers] in E; [inversion E; subst; lia|].
  destruct (nth_error (s_map D s) id) as [v|]; [|discriminate]. apply bind_ok in E as (h & _ & E). destruct h as [n|]; [|discriminate].
  cbv zeta in E. apply bind_ok in E as (s2 & E2 & E). apply IH in E. apply mono_acts in E2. cbn [log_add s_now] in E2. lia.
Qed.
Lemma same_calls id d k i s s' : call_handlers D beh rec id d k i s = Ok s' -> 0 <= s_now D s -> s_now D s' < 2 ^ 32 ->
  call_handlers D beh wrec id d k i s = Ok s'.
Proof.
  revert i s. induction k as [|k IH]; intros i s E H0 H1; cbn [call_handlers] in *; auto.
  destruct (nth_error (s_map D s) id) as [v|]; [|discriminate]. apply bind_ok in E as (h & Eh & E). rewrite Eh. cbn [bind]. destruct h as [n|]; [|discriminate].
  cbv zeta in *. apply bind_ok in E as (s2 & E2 & E). pose proof (mono_calls _ _ _ _ _ _ E). pose proof (mono_acts _ _ _ E2) as M. cbn [log_add s_now] in M.
  rewrite (same_acts _ _ _ E2) by (cbn [log_add s_now]; lia). cbn [bind]. apply IH; auto; lia.
Qed.
Lemma mono_trigger id d s s' : trigger_ev D dbg beh rec id d s = Ok s' -> s_now D s <= s_now D s'.
Proof.
  unfold trigger_ev. intros E. apply bind_ok in E as (? & _ & E). destruct (nth_error (s_map D s) id); [|discriminate].
  apply bind_ok in E as (? & _ & E). eapply mono_calls; eauto.
Qed.
Lemma same_trigger id d s s' : trigger_ev D dbg beh rec id d s = Ok s' -> 0 <= s_now D s -> s_now D s' < 2 ^ 32 ->
  trigger_ev D dbg beh wrec id d s = Ok s'.
Proof.
  unfold trigger_ev. intros E H0 H1. apply bind_ok in E as (u & Eu & E). rewrite Eu. cbn [bind]. destruct (nth_error (s_map D s) id); [|discriminate].
  apply bind_ok in E as (u2 & Eu2 & E). rewrite Eu2. cbn [bind]. eapply same_calls; eauto.
Qed.
Lemma mono_trigger_kept k s s' : trigger_kept D dbg beh rec k s = Ok s' -> s_now D s <= s_now D s'.
Proof.
  unfold trigger_kept. intros E. apply bind_ok in E as ([o s1] & E1 & E). apply bind_ok in E as (? & _ & E). apply bind_ok in E as (e & _ & E).
  apply bind_ok in E as (s2 & E2 & E). apply ok_inj in E. subst s'. rewrite now_keep_ptr. apply now_take_ptr in E1. apply mono_trigger in E2. lia.
Qed.
Lemma same_trigger_kept k s s' : trigger_kept D dbg beh rec k s = Ok s' -> 0 <= s_now D s -> s_now D s' < 2 ^ 32 ->
  trigger_kept D dbg beh wrec k s = Ok s'.
Proof.
  unfold trigger_kept. intros E H0 H1. apply bind_ok in E as ([o s1] & E1 & E). rewrite E1. cbn [bind]. apply bind_ok in E as (u & Eu & E). rewrite Eu. cbn [bind].
  apply bind_ok in E as (e & Ee & E). rewrite Ee. cbn [bind]. apply bind_ok in E as (s2 & E2 & E). apply ok_inj in E. subst s'. rewrite now_keep_ptr in H1.
  apply now_take_ptr in E1. rewrite (same_trigger _ _ _ _ E2) by lia. reflexivity.
Qed.
Lemma mono_loop s s' : loop_with D dbg cfg beh rec s = Ok s' -> s_now D s <= s_now D s'.
Proof.
  unfold loop_with. intros E. apply bind_ok in E as ([b s1] & E1 & E). apply now_contains in E1. destruct b.
  - apply bind_ok in E as ([p s2] & E2 & E). apply now_expire in E2. apply bind_ok in E as (? & _ & E).
    apply bind_ok in E as (e & He & E). cbv zeta in E. apply bind_ok in E as (s4 & E4 & E).
    apply mono_trigger in E4. apply Hmono in E. rewrite (now_release p s4) in E. cbn [log_add s_now] in E4. lia.
  - apply now_tick in E. lia.
Qed.
Lemma same_loop s s' : loop_with D dbg cfg beh rec s = Ok s' -> 0 <= s_now D s -> s_now D s' < 2 ^ 32 ->
  loop_with D dbg cfg beh wrec s = Ok s'.
Proof.
  unfold loop_with. intros E H0 H1. apply bind_ok in E as ([b s1] & E1 & E). rewrite E1. cbn [bind]. apply now_contains in E1. destruct b; [|exact E].
  apply bind_ok in E as ([p s2] & E2 & E). rewrite E2. cbn [bind]. apply now_expire in E2. apply bind_ok in E as (u & Eu & E). rewrite Eu. cbn [bind].
  apply bind_ok in E as (e & He & E). rewrite He. cbn [bind]. cbv zeta in *. apply bind_ok in E as (s4 & E4 & E).
  pose proof (mono_trigger _ _ _ _ E4) as M4. pose proof (Hmono _ _ _ E) as M. rewrite (now_release p s4) in M. cbn [log_add s_now] in M4.
  rewrite (same_trigger _ _ _ _ E4) by (cbn [log_add s_now]; lia). cbn [bind]. apply Hsame; auto. rewrite (now_release p s4). lia.
Qed.
End Same.

Lemma turn_id s : 0 <= s_now D s < 2 ^ 32 -> turn D s = s.
Proof. intros H. unfold turn, arduino_millis. rewrite Z.mod_small by exact H. destruct s; reflexivity. Qed.
Lemma mono_act fuel : forall a s s', do_act D W L dbg cfg beh fuel a s = Ok s' -> s_now D s <= s_now D s'.
Proof.
  induction fuel as [|f IH]; intros a s s' E; cbn [do_act] in E;
    destruct a as [id t d|id d|id h|dt| |id t d|k|k|k]; try discriminate;
    try (apply now_schedule in E; lia); try (apply now_attach in E; lia); try (apply now_keep_event in E; lia);
    try (apply now_schedule_kept in E; lia); try (apply now_drop_kept in E; lia);
    try (inversion E; subst; cbn [advance s_now]; lia).
  - apply (mono_loop (fun _ _ => Fuel)) in E; auto. discriminate.
  - apply bind_ok in E as ([o s2] & E2 & E). apply now_event in E2. destruct o as [n|].
    + apply bind_ok in E as (s3 & E3 & E). apply ok_inj in E. subst s'. apply mono_trigger in E3; auto. cbn [release s_now]. lia.
    + apply bind_ok in E as (? & _ & E). discriminate.
  - apply mono_loop in E; auto.
  - apply mono_trigger_kept in E; auto.
Qed.
Lemma same_act fuel : forall a s s', do_act D W L dbg cfg beh fuel a s = Ok s' -> 0 <= s_now D s -> s_now D s' < 2 ^ 32 ->
  wact D W L dbg cfg beh fuel a s = Ok s'.
Proof.
  induction fuel as [|f IH]; intros a s s' E H0 H1; pose proof (mono_act _ _ _ _ E) as M; cbn [do_act] in E; cbn [wact];
    destruct a as [id t d|id d|id h|dt| |id t d|k|k|k]; try discriminate;
    try (rewrite E; cbn [bind]; rewrite turn_id by lia; reflexivity);
    try (cbn [bind]; apply ok_inj in E; rewrite E, turn_id by lia; reflexivity).
  - apply bind_ok in E as ([o s2] & E2 & E). rewrite E2. cbn [bind]. apply now_event in E2. destruct o as [n|].
    + apply bind_ok in E as (s3 & E3 & E). apply ok_inj in E. subst s'. cbn [release s_now] in *.
      rewrite (same_trigger _ _ (mono_act f) IH _ _ _ _ E3) by lia. cbn [bind]. rewrite turn_id; [reflexivity|]. cbn [release s_now]. lia.
    + apply bind_ok in E as (? & _ & E). discriminate.
  - rewrite (same_loop _ _ (mono_act f) IH _ _ E) by lia. cbn [bind]. rewrite turn_id by lia. reflexivity.
  - rewrite (same_trigger_kept _ _ (mono_act f) IH _ _ _ E) by lia. cbn [bind]. rewrite turn_id by lia. reflexivity.
Qed.
Lemma mono_run fuel acts : forall s s', run D W L dbg cfg beh fuel (map (OAct D) acts) s = Ok s' -> s_now D s <= s_now D s'.
Proof.
  induction acts as [|a acts IH]; intros s s' E; cbn [run map step] in E; [inversion E; subst; lia|].
  apply bind_ok in E as (s1 & E1 & E). apply mono_act in E1. apply IH in E. lia.
Qed.
Lemma same_run fuel acts : forall s s', run D W L dbg cfg beh fuel (map (OAct D) acts) s = Ok s' -> 0 <= s_now D s -> s_now D s' < 2 ^ 32 ->
  wrun D W L dbg cfg beh fuel acts s = Ok s'.
Proof.
  induction acts as [|a acts IH]; intros s s' E H0 H1; cbn [run map step wrun] in *; auto.
  apply bind_ok in E as (s1 & E1 & E). pose proof (mono_act _ _ _ _ E1). pose proof (mono_run _ _ _ _ E).
  rewrite (same_act _ _ _ _ E1) by lia. cbn [bind]. apply IH; auto; lia.
Qed.
End Ev.
