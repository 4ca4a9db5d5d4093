(** Properties C25-C29: what an event system over plain lists does, and what must hold of every trace. [near24 t] is the single
    precision number nearest to [t] (KTimeProofs, near24_nearest): how the kernel's arithmetic sees the time [t]. *)
From Coq Require Import List Arith ZArith Bool Sorting.Sorted Permutation.
From Verif Require Import Base KTimeProofs VectorModel VectorSpec PoolModel TimersModel EvModel.
Import ListNotations.
Local Open Scope nat_scope.

Section Spec.
Variable D : Type.

(** ** Traces. Events are identified by due time, id and data. *)
Definition pend := (Z * (nat * D))%type.
Definition scheds (l : list (entry D)) : list pend :=
  flat_map (fun x => match x with LSched _ due id d => [(due, (id, d))] | _ => [] end) l.
Definition fires (l : list (entry D)) : list pend :=
  flat_map (fun x => match x with LFire _ due id d _ => [(due, (id, d))] | _ => [] end) l.
Definition due_at (k : Z) (l : list pend) : list pend := filter (fun x => (fst x =? k)%Z) l.

(** Fired once or still pending, and nothing else, whatever the times *)
Definition none_lost (l : list (entry D)) (pending : list pend) : Prop := Permutation (scheds l) (fires l ++ pending).
(** Early by no more than 2^-24 of the uptime *)
Definition hardly_early (l : list (entry D)) : Prop :=
  forall due id d now, In (LFire D due id d now) l -> (2 ^ 24 * (due - now) <= now)%Z.
(** Never early *)
Definition not_early (l : list (entry D)) : Prop := forall due id d now, In (LFire D due id d now) l -> (due <= now)%Z.
(** Exactly once, and first scheduled first fired among those due at the same time: for each due time the events
    scheduled are those fired followed by those pending, in this order. *)
Definition once (l : list (entry D)) (pending : list pend) : Prop :=
  forall k, due_at k (scheds l) = due_at k (fires l) ++ due_at k pending.
(** In due order: when an event fires, all events scheduled so far which are due earlier have fired. *)
Definition in_order (l : list (entry D)) : Prop :=
  forall l1 due id d now l2, l = l1 ++ LFire D due id d now :: l2 ->
  forall k, (k < due)%Z -> due_at k (scheds l1) = due_at k (fires l1).

(** The handlers [hs] called one after the other, each doing something in between *)
Inductive calls_in (id : nat) (d : D) : list nat -> list (entry D) -> list (entry D) -> Prop :=
| ci_nil l : calls_in id d [] l l
| ci_cons h hs now l did l' : calls_in id d hs (l ++ LCall D h id d now :: did) l' -> calls_in id d (h :: hs) l l'.

(** The events the user keeps after what is in the trace: each is found again as it was put there *)
Inductive keeps : list (entry D) -> list (option (nat * Z * D)) -> Prop :=
| keeps_nil : keeps [] []
| keeps_keep l ks x : keeps l ks -> keeps (l ++ [LKeep D x]) (ks ++ [x])
| keeps_take l ks1 x ks2 : keeps l (ks1 ++ x :: ks2) -> keeps (l ++ [LTake D (length ks1) x]) (ks1 ++ ks2)
| keeps_other l ks e : keeps l ks -> (forall x, e <> LKeep D x) -> (forall k x, e <> LTake D k x) -> keeps (l ++ [e]) ks.

(** Handlers attached to [id] by a program, in order *)
Definition attached (id : nat) (ops : list (op D)) : list nat :=
  flat_map (fun o => match o with OAct _ (AAttach _ i h) => if i =? id then [h] else [] | _ => [] end) ops.

(** Delays up to [T] *)
Definition tame (T : Z) (a : act D) : Prop := match a with ASchedule _ _ t _ | AKeep _ _ t _ => (0 <= t <= T)%Z | _ => True end.
Definition tame_op (T : Z) (o : op D) : Prop := match o with OAct _ a => tame T a | OLoop _ => True end.

(** How long loop() slept at its end *)
Definition slept (l : list (entry D)) : Z := match rev l with LSleep _ ms :: _ => ms | _ => 0%Z end.

(** ** The event system over lists *)
Record sp := mkSp { p_now : Z; p_hs : list (list nat); p_pend : list pend; p_busy : nat;
  p_kept : list (option (nat * Z * D)); p_log : list (entry D) }.

Variable dbg : bool.
Variables cap hcap : nat.
Variable sleeps : bool. (* delay between ticks *)
Variables idle max_sleep : Z. (* in milliseconds, when nothing is pending *)
Variable beh : list (entry D) -> list (act D).

(** After those due at the same time or earlier, before those due later *)
Fixpoint insort (x : pend) (l : list pend) : list pend :=
  match l with [] => [x] | y :: l' => if (fst x <? fst y)%Z then x :: l else y :: insort x l' end.

(** What the library does instead: it compares the times until due, seen in single precision; [c] is the clock so seen *)
Fixpoint enqueue (c : Z) (x : pend) (l : list pend) : list pend :=
  match l with [] => [x] | y :: l' => if (fst x - c <? near24 (fst y - c))%Z then x :: l else y :: enqueue c x l' end.

Definition sp_log (x : entry D) (p : sp) : sp := mkSp (p_now p) (p_hs p) (p_pend p) (p_busy p) (p_kept p) (p_log p ++ [x]).
Definition sp_busy (n : nat) (p : sp) : sp := mkSp (p_now p) (p_hs p) (p_pend p) n (p_kept p) (p_log p).

(** How many are events, not null *)
Definition held (l : list (option (nat * Z * D))) : nat := length (flat_map (fun x => match x with Some y => [y] | None => [] end) l).

(** A free slot is needed for each event; a debug build halts without one, a release build dereferences null. *)
Definition slot (p : sp) : outcome unit :=
  if length (p_pend p) + p_busy p + held (p_kept p) <? cap then Ok tt else if dbg then Halt else UB.

Definition sp_push (id : nat) (t : Z) (d : D) (p : sp) : outcome sp :=
  sassert dbg (0 <? t)%Z ;;;
  let due := (p_now p + near24 t)%Z in
  Ok (sp_log (LSched D due id d)
        (mkSp (p_now p) (p_hs p) (enqueue (near24 (p_now p)) (due, (id, d)) (p_pend p)) (p_busy p) (p_kept p) (p_log p))).

Definition sp_schedule (id : nat) (t : Z) (d : D) (p : sp) : outcome sp := slot p ;;; sp_push id t d p.

(** Events kept: put at the end, taken out of place [k] *)
Definition sp_kept (l : list (option (nat * Z * D))) (p : sp) : sp := mkSp (p_now p) (p_hs p) (p_pend p) (p_busy p) l (p_log p).
Definition sp_keep (x : option (nat * Z * D)) (p : sp) : sp := sp_log (LKeep D x) (sp_kept (p_kept p ++ [x]) p).
Definition sp_taken (k : nat) (x : option (nat * Z * D)) (p : sp) : sp :=
  sp_log (LTake D k x) (sp_kept (firstn k (p_kept p) ++ skipn (S k) (p_kept p)) p).
Definition sp_take (k : nat) (p : sp) : outcome (option (nat * Z * D) * sp) :=
  match nth_error (p_kept p) k with None => UB | Some x => Ok (x, sp_taken k x p) end.
Definition sp_keep_event (id : nat) (t : Z) (d : D) (p : sp) : outcome sp :=
  if length (p_pend p) + p_busy p + held (p_kept p) <? cap then Ok (sp_keep (Some (id, t, d)) p)
  else if dbg then Halt else Ok (sp_keep None p).
Definition sp_schedule_kept (k : nat) (p : sp) : outcome sp :=
  '(x, p1) <- sp_take k p ;;
  match x with Some (id, t, d) => sp_push id t d p1 | None => sassert dbg (length (p_pend p1) <? cap) ;;; UB end.
Definition sp_drop_kept (k : nat) (p : sp) : outcome sp := '(_, p1) <- sp_take k p ;; Ok p1.

Definition sp_attach (id h : nat) (p : sp) : outcome sp :=
  match nth_error (p_hs p) id with
  | None => if dbg then Halt else UB
  | Some hs =>
      sassert dbg (length hs <? hcap) ;;;
      Ok (if length hs <? hcap then mkSp (p_now p) (upd (p_hs p) id (hs ++ [h])) (p_pend p) (p_busy p) (p_kept p) (p_log p) else p)
  end.

Section Trigger.
Variable rec : act D -> sp -> outcome sp.
Fixpoint sp_acts (l : list (act D)) (p : sp) : outcome sp :=
  match l with [] => Ok p | a :: l' => p1 <- rec a p ;; sp_acts l' p1 end.
Fixpoint sp_calls (id : nat) (d : D) (hs : list nat) (p : sp) : outcome sp :=
  match hs with
  | [] => Ok p
  | h :: hs' => let p1 := sp_log (LCall D h id d (p_now p)) p in p2 <- sp_acts (beh (p_log p1)) p1 ;; sp_calls id d hs' p2
  end.
Definition sp_trigger (id : nat) (d : D) (p : sp) : outcome sp :=
  match nth_error (p_hs p) id with
  | None => if dbg then Halt else UB
  | Some hs => sassert dbg (negb (length hs =? 0)) ;;; sp_calls id d hs p
  end.
End Trigger.

Definition sp_trigger_kept (rec : act D -> sp -> outcome sp) (k : nat) (p : sp) : outcome sp :=
  '(x, p1) <- sp_take k p ;;
  match x with
  | Some (id, t, d) =>
      p2 <- sp_trigger rec id d (sp_busy (S (p_busy p)) p1) ;; Ok (sp_keep (Some (id, t, d)) (sp_busy (p_busy p) p2))
  | None => if dbg then Halt else UB
  end.

Definition sp_sleep (p : sp) : sp :=
  if sleeps then
    let ms := match p_pend p with [] => idle | x :: _ => (Z.min (Z.max 0 (fst x - near24 (p_now p))) max_sleep mod 2 ^ 32)%Z end in
    let p1 := sp_log (LSleep D ms) p in mkSp (p_now p1 + ms) (p_hs p1) (p_pend p1) (p_busy p1) (p_kept p1) (p_log p1)
  else p.

Definition sp_loop_with (rec : act D -> sp -> outcome sp) (p : sp) : outcome sp :=
  match p_pend p with
  | [] => Ok (sp_sleep p)
  | (due, (id, d)) :: rest =>
      if (due <=? near24 (p_now p))%Z then
        p1 <- sp_trigger rec id d
                (sp_log (LFire D due id d (p_now p)) (mkSp (p_now p) (p_hs p) rest (S (p_busy p)) (p_kept p) (p_log p))) ;;
        rec (ALoop D) (sp_busy (p_busy p) p1)
      else Ok (sp_sleep p)
  end.

Fixpoint sp_act (fuel : nat) (a : act D) (p : sp) : outcome sp :=
  match a with
  | ASchedule _ id t d => sp_schedule id t d p
  | AAttach _ id h => sp_attach id h p
  | AWait _ dt => Ok (mkSp (p_now p + Z.of_N dt) (p_hs p) (p_pend p) (p_busy p) (p_kept p) (p_log p))
  | ATrigger _ id d =>
      match fuel with
      | 0 => Fuel
      | S f =>
          slot p ;;;
          p1 <- sp_trigger (sp_act f) id d (sp_busy (S (p_busy p)) p) ;; Ok (sp_busy (p_busy p) p1)
      end
  | AKeep _ id t d => sp_keep_event id t d p
  | AScheduleKept _ k => sp_schedule_kept k p
  | ATriggerKept _ k => match fuel with 0 => Fuel | S f => sp_trigger_kept (sp_act f) k p end
  | ADropKept _ k => sp_drop_kept k p
  | ALoop _ => sp_loop_with (match fuel with 0 => fun _ _ => Fuel | S f => sp_act f end) p
  end.
Definition sp_loop (fuel : nat) (p : sp) : outcome sp := sp_act fuel (ALoop D) p.

Definition sp_step (fuel : nat) (o : op D) (p : sp) : outcome sp :=
  match o with OAct _ a => sp_act fuel a p | OLoop _ => sp_loop fuel p end.
Fixpoint sp_run (fuel : nat) (ops : list (op D)) (p : sp) : outcome sp :=
  match ops with [] => Ok p | o :: ops' => p1 <- sp_step fuel o p ;; sp_run fuel ops' p1 end.
Definition sp_new (now : Z) (count : nat) : sp := mkSp now (repeat [] count) [] 0 [] [].
End Spec.

(** ** What can be seen of the event system's state *)
Section Shows.
Variable D : Type.
Variable W : Z.
(** The pending events in the order of the pipeline, as iteration shows them *)
Definition shown (s : es D) (o : sptr) : option (pend D) :=
  match o with
  | Some n => match nth_error (s_objs D s) n with Some e => Some (afuture (e_timer D e), (e_id D e, e_data D e)) | None => None end
  | None => None
  end.
Definition pending (s : es D) (l : list (pend D)) : Prop :=
  exists ps, vholds W (s_pipe D s) ps /\ map (shown s) ps = map Some l.
(** The user's pointers, as they read *)
Definition kept (s : es D) : list (option (nat * Z * D)) := map (look D s) (s_kept D s).
End Shows.

Definition cfg_ok (W : Z) (L : nat) (cfg : config) : Prop :=
  c_cap cfg < L /\ (Z.of_nat (c_cap cfg) < 2 ^ W)%Z /\ (Z.of_nat (c_handler_cap cfg) < 2 ^ W)%Z /\
  (0 <= c_min_us cfg)%Z /\ (0 <= c_max_us cfg)%Z.
