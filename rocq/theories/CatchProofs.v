(** Proofs about caught exceptions (CatchModel). *)
From Coq Require Import ZArith Lia Bool List.
From Verif Require Import Base FloatModel FilterModel FilterProofs CatchModel CatchSpec.
Import ListNotations.
Open Scope Z_scope.

(** The calls that raise nothing are those of FilterModel *)
Lemma bp_agree s f : bp_step s f = match bp_caught s f with (Some y, f') => Ok (y, f') | (None, _) => Halt end.
Proof.
  unfold bp_step, bp_sample, bp_caught. destruct (f_eq (bp_value f) bp_default).
  - set (g := bp_reset s f). destruct (bc_mode (bp_cfg g)).
    + destruct (f_ge s _ && f_le s _); [reflexivity|]. cbn [bp_cfg bp_rejections]. destruct (_ <? _); [destruct (bc_throw _)|]; reflexivity.
    + destruct (f_ge s _ && f_le s _); [reflexivity|]. cbn [bp_cfg bp_rejections]. destruct (_ <? _); [destruct (bc_throw _)|]; reflexivity.
  - destruct (bc_mode (bp_cfg f)).
    + destruct (f_ge s _ && f_le s _); [reflexivity|]. cbn [bp_cfg bp_rejections]. destruct (_ <? _); [destruct (bc_throw _)|]; reflexivity.
    + destruct (f_ge s _ && f_le s _); [reflexivity|]. cbn [bp_cfg bp_rejections]. destruct (_ <? _); [destruct (bc_throw _)|]; reflexivity.
Qed.
Lemma invert_agree dbg s f : invert_value dbg s f = match invert_caught dbg s f with (Some y, f') => Ok (y, f') | (None, _) => Halt end.
Proof. unfold invert_value, invert_caught, sassert. destruct (f_ge s _ && f_le s _), dbg; reflexivity. Qed.
Lemma mapped_agree s f : mapped_value s f = match mapped_caught s f with (Some y, f') => Ok (y, f') | (None, _) => Halt end.
Proof. unfold mapped_value, mapped_caught. destruct ((f_lt s _ || f_gt s _) && mr_throw f); reflexivity. Qed.

Fixpoint bp_caughts (xs : list float) (f : bandpass) : list (bool * float) :=
  match xs with
  | [] => []
  | x :: xs' => let (y, f') := bp_caught x f in (match y with Some _ => false | None => true end, bp_value f') :: bp_caughts xs' f'
  end.

Lemma bp_caught_eq x f : bp_inv f -> f_eq (bp_value f) bp_default = false -> bc_throw (bp_cfg f) = true ->
  exists y f', bp_caught x f = (y, f') /\ bp_cfg f' = bp_cfg f /\ bp_inv f' /\
    if in_band (bp_cfg f) (bp_value f) x then y = Some x /\ bp_value f' = x /\ bp_rejections f' = 0
    else bp_value f' = bp_value f /\ bp_rejections f' = bp_rejections f + 1 /\ y = (if bc_limit (bp_cfg f) <=? bp_rejections f then None else Some (bp_value f)).
Proof.
  intros I N T.
  assert (B : forall g, bp_cfg g = bp_cfg f -> bp_value g = bp_value f -> bp_rejections g = bp_rejections f -> bp_inv g ->
    (f_ge x (bp_lower g) && f_le x (bp_upper g)) = in_band (bp_cfg f) (bp_value f) x ->
    exists y f', (if f_ge x (bp_lower g) && f_le x (bp_upper g) then (Some x, mkBP (bp_cfg g) x (bp_lower g) (bp_upper g) 0)
      else let g := mkBP (bp_cfg g) (bp_value g) (bp_lower g) (bp_upper g) (bp_rejections g + 1) in
           if bc_limit (bp_cfg g) <? bp_rejections g then
             if bc_throw (bp_cfg g) then (None, g) else (Some x, mkBP (bp_cfg g) x (bp_lower g) (bp_upper g) (bp_rejections g))
           else (Some (bp_value g), g)) = (y, f') /\ bp_cfg f' = bp_cfg f /\ bp_inv f' /\
    if in_band (bp_cfg f) (bp_value f) x then y = Some x /\ bp_value f' = x /\ bp_rejections f' = 0
    else bp_value f' = bp_value f /\ bp_rejections f' = bp_rejections f + 1 /\ y = (if bc_limit (bp_cfg f) <=? bp_rejections f then None else Some (bp_value f))).
  { intros g C V R Ig E. rewrite E. destruct (in_band (bp_cfg f) (bp_value f) x).
    - do 2 eexists. split; [reflexivity|]. split; [exact C|]. split; [exact Ig|]. auto.
    - cbv zeta. cbn [bp_cfg bp_rejections bp_value]. rewrite C, R, V, T.
      destruct (Z.ltb_spec (bc_limit (bp_cfg f)) (bp_rejections f + 1)), (Z.leb_spec (bc_limit (bp_cfg f)) (bp_rejections f)); try lia;
        (do 2 eexists; split; [reflexivity|]; split; [reflexivity|]; split; [|split; [|split]; reflexivity]);
        (intros M; cbn [bp_cfg bp_lower bp_upper] in *; rewrite <- C in M |- *; exact (Ig M)). }
  unfold bp_caught. rewrite N. unfold in_band in *. destruct (bc_mode (bp_cfg f)) eqn:M.
  - apply (B (bp_limits f)); try reflexivity; [intros H; cbn [bp_limits bp_cfg] in H; congruence|].
    change (bp_lower (bp_limits f)) with (f_sub (bp_mid (bp_cfg f) (bp_value f)) (bc_width (bp_cfg f))).
    change (bp_upper (bp_limits f)) with (f_add (bp_mid (bp_cfg f) (bp_value f)) (bc_width (bp_cfg f))).
    unfold bp_mid. rewrite M. reflexivity.
  - apply (B f); try reflexivity; [exact I|]. destruct (I M) as [-> ->]. reflexivity.
Qed.

Lemma bp_caughts_eq : forall xs f, bp_inv f -> f_eq (bp_value f) bp_default = false -> bc_throw (bp_cfg f) = true ->
  Forall (fun x => f_eq x bp_default = false) xs ->
  bp_caughts xs f = combine (beyond (in_band (bp_cfg f)) (bc_limit (bp_cfg f)) (bp_value f) (bp_rejections f) xs) (hold (in_band (bp_cfg f)) (bp_value f) xs).
Proof.
  induction xs as [|x xs IH]; intros f I N T HX; [reflexivity|]. inversion HX as [|? ? X1 X2]; subst. cbn [bp_caughts beyond hold].
  destruct (bp_caught_eq x f I N T) as (y & f' & -> & C & I' & E).
  destruct (in_band (bp_cfg f) (bp_value f) x).
  - destruct E as (-> & V & R). cbn [combine]. rewrite IH, C, V, R; [reflexivity|exact I'|rewrite V; exact X1|rewrite C; exact T|exact X2].
  - destruct E as (V & R & ->). cbn [combine]. rewrite IH, C, V, R; [|exact I'|rewrite V; exact N|rewrite C; exact T|exact X2].
    destruct (bc_limit (bp_cfg f) <=? bp_rejections f); reflexivity.
Qed.

Theorem bp_caught_thm c x xs : Forall (fun x => f_eq x bp_default = false) (x :: xs) -> 0 < bc_limit c -> bc_throw c = true ->
  bp_caughts (x :: xs) (bp_new c) =
  (false, x) :: combine (beyond (in_band c) (bc_limit c) x (if in_band c x x then 0 else 1) xs) (hold (in_band c) x xs).
Proof.
  intros HX HL HT. inversion HX as [|? ? X1 X2]; subst.
  assert (E : bp_caughts (x :: xs) (bp_new c) = bp_caughts (x :: xs) (bp_reset x (bp_new c))).
  { cbn [bp_caughts]. unfold bp_caught at 1. change (bp_value (bp_new c)) with bp_default.
    replace (f_eq bp_default bp_default) with true by (vm_compute; reflexivity).
    unfold bp_caught at 1. change (bp_value (bp_reset x (bp_new c))) with x. rewrite X1. reflexivity. }
  rewrite E, bp_caughts_eq; [|exact (bp_new_inv c)|exact X1|exact HT|exact HX].
  change (bp_cfg (bp_reset x (bp_new c))) with c. change (bp_value (bp_reset x (bp_new c))) with x. change (bp_rejections (bp_reset x (bp_new c))) with 0.
  cbn [beyond hold]. destruct (in_band c x x); [reflexivity|]. destruct (Z.leb_spec (bc_limit c) 0); [lia|]. reflexivity.
Qed.

(** A filter that keeps its value when it raises *)
Definition keeps (f : cfilter) : Prop := forall x s s', cstep f x s = (None, s') -> ccur f s' = ccur f s.
Lemma keeps_ewma f : keeps (c_ewma f).
Proof. intros x s s' H. cbn in H. destruct (ewma_value x s). discriminate. Qed.
Lemma keeps_invert dbg f : keeps (c_invert dbg f).
Proof. intros x s s' H. cbn [cstep c_invert] in H. unfold invert_caught in H. destruct (dbg && _); [congruence|discriminate]. Qed.
Lemma keeps_mapped f : keeps (c_mapped f).
Proof. intros x s s' H. cbn [cstep c_mapped] in H. unfold mapped_caught in H. destruct (_ && _); [congruence|discriminate]. Qed.
Lemma keeps_passthrough v : keeps (c_passthrough v).
Proof. intros x s s' H. discriminate. Qed.
Lemma keeps_bandpass x s s' : f_eq (bp_value s) bp_default = false -> bp_caught x s = (None, s') -> bp_value s' = bp_value s.
Proof.
  intros N. unfold bp_caught. rewrite N. destruct (bc_mode (bp_cfg s)).
  - destruct (f_ge x _ && f_le x _); [discriminate|]. cbv zeta. cbn [bp_cfg bp_rejections bp_value]. destruct (_ <? _); [|discriminate].
    destruct (bc_throw _); [|discriminate]. intros H. assert (E : s' = snd (None : option float, s')) by reflexivity. rewrite <- H in E. rewrite E. reflexivity.
  - destruct (f_ge x _ && f_le x _); [discriminate|]. cbv zeta. cbn [bp_cfg bp_rejections bp_value]. destruct (_ <? _); [|discriminate].
    destruct (bc_throw _); [|discriminate]. intros H. assert (E : s' = snd (None : option float, s')) by reflexivity. rewrite <- H in E. rewrite E. reflexivity.
Qed.

(** Where a stack was left *)
Theorem stack_caught dbg : forall s x s', c_stack dbg x s = (None, s') ->
  exists s1 s1' o o' s2 y, s = s1 ++ o :: s2 /\ s' = s1' ++ o' :: s2 /\ c_stack dbg x s1 = (Some y, s1') /\
    match o with
    | Some f => exists f', o' = Some f' /\ c_run y f = (None, f')
    | None => o' = None /\ dbg = true
    end.
Proof.
  induction s as [|o s IH]; intros x s' H; cbn [c_stack] in H; [discriminate|]. destruct o as [f|].
  - destruct (c_run x f) as [[y|] f'] eqn:E.
    + destruct (c_stack dbg y s) as [z s''] eqn:E2. assert (z = None) by congruence. assert (s' = Some f' :: s'') by congruence. subst z s'.
      destruct (IH _ _ E2) as (s1 & s1' & o & o' & s2 & u & -> & -> & E3 & H3).
      exists (Some f :: s1), (Some f' :: s1'), o, o', s2, u. split; [reflexivity|]. split; [reflexivity|]. split; [|exact H3].
      cbn [c_stack]. rewrite E, E3. reflexivity.
    + exists [], [], (Some f), (Some f'), s, x. assert (s' = Some f' :: s) by congruence. subst s'. repeat (split; [reflexivity|]). exists f'. auto.
  - destruct dbg.
    + exists [], [], None, None, s, x. assert (s' = None :: s) by congruence. subst s'. repeat (split; [reflexivity|]). auto.
    + destruct (c_stack false x s) as [z s''] eqn:E2. assert (z = None) by congruence. assert (s' = None :: s'') by congruence. subst z s'.
      destruct (IH _ _ E2) as (s1 & s1' & o & o' & s2 & u & -> & -> & E3 & H3).
      exists (None :: s1), (None :: s1'), o, o', s2, u. split; [reflexivity|]. split; [reflexivity|]. split; [|exact H3].
      cbn [c_stack]. rewrite E3. reflexivity.
Qed.
