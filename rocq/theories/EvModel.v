(** Model of eventsystem/pipeline.{hpp,cpp} and eventsystem/eventsystem.{hpp,cpp} over the models of Vector, Pool, AlarmTimer
    and kernel time. *)
From Coq Require Import List Arith ZArith Bool.
From Verif Require Import Base KTimeModel TimersModel VectorModel PoolModel.
Import ListNotations.
Local Open Scope nat_scope.

Section Ev.
(** Event::Data (eventsystem.hpp:32-52) is carried around unchanged. *)
Variable D : Type.
Variable nodata : D.
Variable W : Z. (* bits of size_t *)
Variable L : nat. (* values of the pool's lookup index, 65536 *)
Variable dbg : bool.

(** eventsystem.hpp:26-66 with its base Future, pipeline.hpp:16-46 *)
Record ev := mkEv { e_id : nat; e_data : D; e_tfn : Z; e_timer : alarm }.

(** eventsystem.hpp:92-99 *)
Record config := mkCfg { c_count : nat; c_cap : nat; c_handler_cap : nat; c_delay : bool; c_min_us : Z; c_max_us : Z }.
Variable cfg : config.

(** What can be observed: an event put into the pipeline with its due time, one taken out of it by loop(), a call of a
    handler, a sleep, an event the user got with event() put to the end of those they keep (its id, delay and data as they were
    given, or null), one taken out of them (id, delay and data as they read then). *)
Inductive entry := LSched (due : Z) (id : nat) (d : D) | LFire (due : Z) (id : nat) (d : D) (now : Z)
| LCall (h : nat) (id : nat) (d : D) (now : Z) | LSleep (ms : Z)
| LKeep (x : option (nat * Z * D)) | LTake (k : nat) (x : option (nat * Z * D)).

(** eventsystem.hpp:160-166; [s_now] is the clock, [s_objs] the events the pool owns, [s_loc] the shared_ptrs in running
    calls, [s_kept] those returned by event() which the user keeps. Handlers are numbered; Some h is a pointer to handler h. *)
Record es := mkEs { s_now : Z; s_map : list (vec sptr); s_pipe : vec sptr; s_pool : pool; s_objs : list ev;
                    s_loc : list nat; s_kept : list sptr; s_log : list entry }.

(** What a program or a handler may do, in any order; AWait: time passes. AKeep: kept.push_back(event(id, t, d));
    AScheduleKept: schedule(std::move(kept[k])), the slot being erased; ATriggerKept: the same for trigger(e), after which e goes
    back to the end of kept; ADropKept: kept[k] is erased. Not modelled: copies of these pointers, null handlers. *)
Inductive act := ASchedule (id : nat) (t : Z) (d : D) | ATrigger (id : nat) (d : D) | AAttach (id h : nat) | AWait (dt : N)
| ALoop | AKeep (id : nat) (t : Z) (d : D) | AScheduleKept (k : nat) | ATriggerKept (k : nat) | ADropKept (k : nat).
(** The handlers' behaviour: what the handler called last does, given everything observed so far. *)
Variable beh : list entry -> list act.

Definition log_add (x : entry) (s : es) : es :=
  mkEs (s_now s) (s_map s) (s_pipe s) (s_pool s) (s_objs s) (s_loc s) (s_kept s) (s_log s ++ [x]).
Definition hold (o : nat) (s : es) : es := mkEs (s_now s) (s_map s) (s_pipe s) (s_pool s) (s_objs s) (o :: s_loc s) (s_kept s) (s_log s).
Definition release (o : nat) (s : es) : es :=
  mkEs (s_now s) (s_map s) (s_pipe s) (s_pool s) (s_objs s) (drop_one o (s_loc s)) (s_kept s) (s_log s).
Definition set_obj (o : nat) (e : ev) (s : es) : es :=
  mkEs (s_now s) (s_map s) (s_pipe s) (s_pool s) (upd (s_objs s) o e) (s_loc s) (s_kept s) (s_log s).
Definition set_pipe (v : vec sptr) (s : es) : es := mkEs (s_now s) (s_map s) v (s_pool s) (s_objs s) (s_loc s) (s_kept s) (s_log s).
Definition advance (dt : Z) (s : es) : es := mkEs (s_now s + dt) (s_map s) (s_pipe s) (s_pool s) (s_objs s) (s_loc s) (s_kept s) (s_log s).

Definition set_kept (l : list sptr) (s : es) : es := mkEs (s_now s) (s_map s) (s_pipe s) (s_pool s) (s_objs s) (s_loc s) l (s_log s).

(** All references to events outside of the pool's own vector *)
Fixpoint somes (l : list sptr) : list nat :=
  match l with [] => [] | Some o :: l' => o :: somes l' | None :: l' => somes l' end.
Definition refs (s : es) : list nat := somes (vst (s_pipe s)) ++ s_loc s ++ somes (s_kept s).

(** Event(): eventsystem.hpp:58, 61-62, pipeline.hpp:19, pipeline.cpp:7 *)
Definition ev_default (now : Z) : ev := mkEv 0 nodata 0 (mkAlarm (kadd MS MS now 0) false).

(** eventsystem.cpp:33-45 (constructor); populate cannot fail here, see populate_all *)
Definition es_new (now : Z) : es :=
  mkEs now (repeat (@vec_new sptr None (c_handler_cap cfg)) (c_count cfg)) (@vec_new sptr None (c_cap cfg))
    (mkPool (mkVec (map Some (seq 0 (c_cap cfg))) 0 (c_cap cfg)) 0) (repeat (ev_default now) (c_cap cfg)) [] [] [].

(** eventsystem.hpp:111-118 *)
Definition attach (id h : nat) (s : es) : outcome es :=
  sassert dbg (id <? length (s_map s)) ;;;
  match nth_error (s_map s) id with
  | None => UB
  | Some v =>
      sassert dbg (vsize v <? c_handler_cap cfg) ;;;
      v' <- @push_back sptr None W dbg v (Some h) ;;
      Ok (mkEs (s_now s) (upd (s_map s) id v') (s_pipe s) (s_pool s) (s_objs s) (s_loc s) (s_kept s) (s_log s))
  end.

(** eventsystem.hpp:135-146. The returned pointer is a reference of the caller. *)
Definition event (id : nat) (t : Z) (d : D) (s : es) : outcome (sptr * es) :=
  '(p, pl) <- acquire L dbg (pool_size (s_pool s)) (mkPW (s_pool s) (refs s)) ;;
  let s1 := mkEs (s_now s) (s_map s) (s_pipe s) pl (s_objs s) (s_loc s) (s_kept s) (s_log s) in
  sassert dbg (match p with Some _ => true | None => false end) ;;;
  match p with
  | None => Ok (None, s1)
  | Some o =>
      match nth_error (s_objs s1) o with
      | None => UB
      | Some e => Ok (Some o, hold o (set_obj o (mkEv id d t (e_timer e)) s1))
      end
  end.

(** The event a pointer in the pipe points to *)
Definition deref (s : es) (p : sptr) : outcome ev :=
  match p with None => UB | Some o => match nth_error (s_objs s) o with None => UB | Some e => Ok e end end.

(** pipeline.hpp:35 *)
Definition until (s : es) (e : ev) : Z := alarm_time_from_now (s_now s) (e_timer e).

(** pipeline.cpp:72-82: the index of the first future due later than the new one; [k] more to look at. *)
Fixpoint push_scan (s : es) (e : ev) (k i : nat) : outcome nat :=
  match k with
  | 0 => Ok i
  | S k' =>
      p <- rd (vst (s_pipe s)) (vh (s_pipe s) + i) ;;
      o <- deref s p ;;
      if klt MS MS (until s e) (until s o) then Ok i else push_scan s e k' (i + 1)
  end.

(** pipeline.cpp:69-84 with reschedule(), pipeline.cpp:9-13. The argument of reschedule is 0, so that the event's own time is
    used. *)
Definition push (o : sptr) (s : es) : outcome es :=
  sassert dbg (vsize (s_pipe s) <? vmax (s_pipe s)) ;;;
  e <- deref s o ;;
  let t := if kne MS MS 0 0 then 0%Z else e_tfn e in
  sassert dbg (kgt MS MS t 0) ;;;
  a <- alarm_new dbg (s_now s) t false ;;
  let e1 := mkEv (e_id e) (e_data e) t a in
  let s1 := match o with Some n => set_obj n e1 s | None => s end in
  i <- push_scan s1 e1 (vsize (s_pipe s1)) 0 ;;
  v <- (if i <? vsize (s_pipe s1) then
          v <- @insert sptr None W dbg (s_pipe s1) i o ;; sassert dbg (vsize (s_pipe s1) + 1 =? vsize v) ;;; Ok v
        else @push_back sptr None W dbg (s_pipe s1) o) ;;
  Ok (log_add (LSched (afuture a) (e_id e1) (e_data e1)) (set_pipe v s1)).

(** eventsystem.hpp:148-155 *)
Definition schedule (id : nat) (t : Z) (d : D) (s : es) : outcome es :=
  '(o, s1) <- event id t d s ;;
  s2 <- push o s1 ;;
  Ok (match o with Some n => release n s2 | None => s2 end).

(** ** Events in the user's hands *)
(** How an event reads: its id, the time it was made for and its data *)
Definition look (s : es) (o : sptr) : option (nat * Z * D) :=
  match o with
  | Some n => match nth_error (s_objs s) n with Some e => Some (e_id e, e_tfn e, e_data e) | None => None end
  | None => None
  end.
(** A pointer moves from a local variable to the end of those kept; [x] is the event the user takes it for *)
Definition keep_ptr (o : sptr) (x : option (nat * Z * D)) (s : es) : es :=
  let s1 := match o with Some n => release n s | None => s end in
  log_add (LKeep x) (set_kept (s_kept s1 ++ [o]) s1).
(** ... and back; reading outside of the user's own list is undefined *)
Definition take_ptr (k : nat) (s : es) : outcome (sptr * es) :=
  match nth_error (s_kept s) k with
  | None => UB
  | Some o =>
      let s1 := log_add (LTake k (look s o)) (set_kept (firstn k (s_kept s) ++ skipn (S k) (s_kept s)) s) in
      Ok (o, match o with Some n => hold n s1 | None => s1 end)
  end.
(** eventsystem.hpp:135-146 *)
Definition keep_event (id : nat) (t : Z) (d : D) (s : es) : outcome es :=
  '(o, s1) <- event id t d s ;; Ok (keep_ptr o (match o with Some _ => Some (id, t, d) | None => None end) s1).
(** eventsystem.hpp:154-155 *)
Definition schedule_kept (k : nat) (s : es) : outcome es :=
  '(o, s1) <- take_ptr k s ;;
  s2 <- push o s1 ;;
  Ok (match o with Some n => release n s2 | None => s2 end).
(** eventsystem.hpp:154-155 with a copy, schedule(std::shared_ptr<Event>(kept[k])); not among what the programs here do, see
    C107_copy_refuted *)
Definition schedule_copy (k : nat) (s : es) : outcome es :=
  match nth_error (s_kept s) k with
  | None => UB
  | Some o =>
      s2 <- push o (match o with Some n => hold n s | None => s end) ;;
      Ok (match o with Some n => release n s2 | None => s2 end)
  end.
Definition drop_kept (k : nat) (s : es) : outcome es :=
  '(o, s1) <- take_ptr k s ;; Ok (match o with Some n => release n s1 | None => s1 end).

Section Trigger.
Variable rec : act -> es -> outcome es.
Fixpoint do_acts (l : list act) (s : es) : outcome es :=
  match l with [] => Ok s | a :: l' => s1 <- rec a s ;; do_acts l' s1 end.
(** eventsystem.cpp:68-70: the end of the iteration is fixed at its start; [k] handlers to go, the next at index [i] *)
Fixpoint call_handlers (id : nat) (d : D) (k i : nat) (s : es) : outcome es :=
  match k with
  | 0 => Ok s
  | S k' =>
      match nth_error (s_map s) id with
      | None => UB
      | Some v =>
          h <- rd (vst v) i ;;
          match h with
          | None => UB
          | Some n =>
              let s1 := log_add (LCall n id d (s_now s)) s in
              s2 <- do_acts (beh (s_log s1)) s1 ;;
              call_handlers id d k' (i + 1) s2
          end
      end
  end.
(** eventsystem.cpp:63-71 *)
Definition trigger_ev (id : nat) (d : D) (s : es) : outcome es :=
  sassert dbg (id <? length (s_map s)) ;;;
  match nth_error (s_map s) id with
  | None => UB
  | Some v => sassert dbg (negb (vempty v)) ;;; call_handlers id d (vsize v) (vh v) s
  end.
End Trigger.

(** eventsystem.cpp:58-61 *)
Definition trigger_kept (rec : act -> es -> outcome es) (k : nat) (s : es) : outcome es :=
  '(o, s1) <- take_ptr k s ;;
  sassert dbg (match o with Some _ => true | None => false end) ;;;
  e <- deref s1 o ;;
  s2 <- trigger_ev rec (e_id e) (e_data e) s1 ;;
  Ok (keep_ptr o (look s1 o) s2).

(** pipeline.hpp:60-64 *)
Definition contains_expired (s : es) : outcome (bool * es) :=
  if vempty (s_pipe s) then Ok (false, s) else
  p <- peek_front dbg (s_pipe s) ;;
  e <- deref s p ;;
  let (b, a) := alarm_expired (s_now s) (e_timer e) in
  Ok (b, match p with Some o => set_obj o (mkEv (e_id e) (e_data e) (e_tfn e) a) s | None => s end).

(** pipeline.cpp:58-67; the pointer is moved out of the pipe and becomes a reference of the caller *)
Definition expire (s : es) : outcome (sptr * es) :=
  sassert dbg (negb (vempty (s_pipe s))) ;;;
  if vempty (s_pipe s) then Ok (None, s) else
  '(p, v) <- @pop_front sptr (fun _ => None) dbg (s_pipe s) ;;
  let s1 := set_pipe v s in
  sassert dbg (match p with Some _ => true | None => false end) ;;;
  e <- deref s1 p ;;
  let (b, a) := alarm_expired (s_now s1) (e_timer e) in
  let s2 := match p with Some o => set_obj o (mkEv (e_id e) (e_data e) (e_tfn e) a) s1 | None => s1 end in
  sassert dbg b ;;;
  if b then Ok (p, match p with Some o => hold o s2 | None => s2 end) else Ok (None, s2).

(** pipeline.cpp:49-56 *)
Definition time_until_next (s : es) : outcome Z :=
  if vempty (s_pipe s) then Ok 0%Z else
  p <- peek_front dbg (s_pipe s) ;;
  e <- deref s p ;;
  let future := afuture (e_timer e) in
  Ok (if kle MS MS future (s_now s) then 0%Z else ksub MS MS future (s_now s)).

(** eventsystem.cpp:82-87. HAL::delay_ms takes the count as a uint32_t (platform.hpp:108), HAL::delay converts microseconds to
    milliseconds (platform.hpp:96). The clock is taken to advance by exactly the delay. *)
Definition tick_delay (s : es) : outcome es :=
  if c_delay cfg then
    ms <- (if vempty (s_pipe s) then Ok (kconv MS US (c_min_us cfg))
           else u <- time_until_next s ;; Ok (Z.min u (c_max_us cfg) mod 2 ^ 32)%Z) ;;
    Ok (advance ms (log_add (LSleep ms) s))
  else Ok s.

(** eventsystem.cpp:73-88; [rec ALoop] goes round the while again, [rec] are the calls the handlers make *)
Definition loop_with (rec : act -> es -> outcome es) (s : es) : outcome es :=
  '(b, s1) <- contains_expired s ;;
  if (b : bool) then
    '(p, s2) <- expire s1 ;;
    sassert dbg (match p with Some _ => true | None => false end) ;;;
    e <- deref s2 p ;;
    let s3 := log_add (LFire (afuture (e_timer e)) (e_id e) (e_data e) (s_now s2)) s2 in
    s4 <- trigger_ev rec (e_id e) (e_data e) s3 ;;
    rec ALoop (match p with Some o => release o s4 | None => s4 end)
  else tick_delay s1.

(** One call; [fuel] bounds the nesting of triggers (eventsystem.hpp:129-133, eventsystem.cpp:58-61) and the number of events a
    loop() fires *)
Fixpoint do_act (fuel : nat) (a : act) (s : es) : outcome es :=
  match a with
  | ASchedule id t d => schedule id t d s
  | AAttach id h => attach id h s
  | AWait dt => Ok (advance (Z.of_N dt) s)
  | ATrigger id d =>
      match fuel with
      | 0 => Fuel
      | S f =>
          '(o, s1) <- event id 0 d s ;;
          match o with
          | None => sassert dbg false ;;; UB
          | Some n => s2 <- trigger_ev (do_act f) id d s1 ;; Ok (release n s2)
          end
      end
  | AKeep id t d => keep_event id t d s
  | AScheduleKept k => schedule_kept k s
  | ATriggerKept k => match fuel with 0 => Fuel | S f => trigger_kept (do_act f) k s end
  | ADropKept k => drop_kept k s
  | ALoop => loop_with (match fuel with 0 => fun _ _ => Fuel | S f => do_act f end) s
  end.
Definition loop (fuel : nat) (s : es) : outcome es := do_act fuel ALoop s.

Inductive op := OAct (a : act) | OLoop.
Definition step (fuel : nat) (o : op) (s : es) : outcome es :=
  match o with OAct a => do_act fuel a s | OLoop => loop fuel s end.
Fixpoint run (fuel : nat) (ops : list op) (s : es) : outcome es :=
  match ops with [] => Ok s | o :: ops' => s1 <- step fuel o s ;; run fuel ops' s1 end.
End Ev.
