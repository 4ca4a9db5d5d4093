(** Model of eventsystem/eventsystem.{hpp,cpp} and pipeline.{hpp,cpp} with handlers which throw exceptions of their own, over the
    model of the event system: everything that calls no handler is taken from there. An exception leaves the function it passes
    through at once; the shared_ptrs on the stack are destroyed. *)
From Coq Require Import List Arith ZArith Bool.
From Verif Require Import Base KTimeModel TimersModel VectorModel PoolModel EvModel.
Import ListNotations.
Local Open Scope nat_scope.

Section Fling.
Variable D : Type.
Variable W : Z.
Variable L : nat.
Variable dbg : bool.
Variable cfg : config.
Notation es := (es D).
Notation act := (act D).

(** What a handler may do: a call, a call inside try { ... } catch (...) {}, a throw *)
Inductive hact := HAct (a : act) | HTry (a : act) | HThrow.
Variable beh : list (entry D) -> list hact.

Section Trigger.
(** A call gives the state and whether an exception leaves it *)
Variable rec : act -> es -> outcome (bool * es).
Fixpoint do_hacts (l : list hact) (s : es) : outcome (bool * es) :=
  match l with
  | [] => Ok (false, s)
  | HThrow :: _ => Ok (true, s)
  | HAct a :: l' => '(b, s1) <- rec a s ;; if (b : bool) then Ok (true, s1) else do_hacts l' s1
  | HTry a :: l' => '(_, s1) <- rec a s ;; do_hacts l' s1
  end.
(** eventsystem.cpp:68-70 *)
Fixpoint fcall_handlers (id : nat) (d : D) (k i : nat) (s : es) : outcome (bool * es) :=
  match k with
  | 0 => Ok (false, s)
  | S k' =>
      match nth_error (s_map D s) id with
      | None => UB
      | Some v =>
          h <- rd (vst v) i ;;
          match h with
          | None => UB
          | Some n =>
              let s1 := log_add D (LCall D n id d (s_now D s)) s in
              '(b, s2) <- do_hacts (beh (s_log D s1)) s1 ;;
              if (b : bool) then Ok (true, s2) else fcall_handlers id d k' (i + 1) s2
          end
      end
  end.
(** eventsystem.cpp:63-71 *)
Definition ftrigger_ev (id : nat) (d : D) (s : es) : outcome (bool * es) :=
  sassert dbg (id <? length (s_map D s)) ;;;
  match nth_error (s_map D s) id with
  | None => UB
  | Some v => sassert dbg (negb (vempty v)) ;;; fcall_handlers id d (vsize v) (vh v) s
  end.
End Trigger.

(** eventsystem.cpp:58-61: the event is the caller's and goes back to the end of those kept either way *)
Definition ftrigger_kept (rec : act -> es -> outcome (bool * es)) (k : nat) (s : es) : outcome (bool * es) :=
  '(o, s1) <- take_ptr D k s ;;
  sassert dbg (match o with Some _ => true | None => false end) ;;;
  e <- deref D s1 o ;;
  '(b, s2) <- ftrigger_ev rec (e_id D e) (e_data D e) s1 ;;
  Ok (b, keep_ptr D o (look D s1 o) s2).

(** eventsystem.cpp:73-88: the event taken out of the pipeline is a local of the loop's body *)
Definition floop_with (rec : act -> es -> outcome (bool * es)) (s : es) : outcome (bool * es) :=
  '(b, s1) <- contains_expired D dbg s ;;
  if (b : bool) then
    '(p, s2) <- expire D dbg s1 ;;
    sassert dbg (match p with Some _ => true | None => false end) ;;;
    e <- deref D s2 p ;;
    let s3 := log_add D (LFire D (afuture (e_timer D e)) (e_id D e) (e_data D e) (s_now D s2)) s2 in
    '(x, s4) <- ftrigger_ev rec (e_id D e) (e_data D e) s3 ;;
    let s5 := match p with Some o => release D o s4 | None => s4 end in
    if (x : bool) then Ok (true, s5) else rec (ALoop D) s5
  else s1' <- tick_delay D dbg cfg s1 ;; Ok (false, s1').

(** As [do_act]; only the calls which trigger can be left by an exception *)
Fixpoint fdo_act (fuel : nat) (a : act) (s : es) : outcome (bool * es) :=
  match a with
  | ATrigger _ id d =>
      match fuel with
      | 0 => Fuel
      | S f =>
          '(o, s1) <- event D L dbg id 0 d s ;;
          match o with
          | None => sassert dbg false ;;; UB
          | Some n => '(b, s2) <- ftrigger_ev (fdo_act f) id d s1 ;; Ok (b, release D n s2)
          end
      end
  | ATriggerKept _ k => match fuel with 0 => Fuel | S f => ftrigger_kept (fdo_act f) k s end
  | ALoop _ => floop_with (match fuel with 0 => fun _ _ => Fuel | S f => fdo_act f end) s
  | ASchedule _ id t d => s1 <- schedule D W L dbg id t d s ;; Ok (false, s1)
  | AAttach _ id h => s1 <- attach D W dbg cfg id h s ;; Ok (false, s1)
  | AWait _ dt => Ok (false, advance D (Z.of_N dt) s)
  | AKeep _ id t d => s1 <- keep_event D L dbg id t d s ;; Ok (false, s1)
  | AScheduleKept _ k => s1 <- schedule_kept D W dbg k s ;; Ok (false, s1)
  | ADropKept _ k => s1 <- drop_kept D k s ;; Ok (false, s1)
  end.

(** The program catches whatever leaves its calls and goes on. *)
Fixpoint frun (fuel : nat) (ops : list act) (s : es) : outcome es :=
  match ops with [] => Ok s | a :: ops' => '(_, s1) <- fdo_act fuel a s ;; frun fuel ops' s1 end.
End Fling.
