(** The library on a clock that rolls around: "milliseconds expired since application start up (rolls around)" (platform.hpp:89). See
    RollModel for the clock. Throughout [T] is the true time in
    milliseconds since the start, unbounded. *)
From Coq Require Import ZArith Bool List.
From Verif Require Import Base KTimeModel TimersModel RollModel LatchModel FloatModel PidModel EvModel.
Import ListNotations.
Open Scope Z_scope.

(** ** The event system of EvModel, with the clock rolled around after each call at every depth. Within a call the clock only advances in
    AWait and at the end of loop() (eventsystem.cpp:82-87), and in calls made by handlers. *)
Section Ev.
Variable D : Type.
Variable nodata : D.
Variable W : Z.
Variable L : nat.
Variable dbg : bool.
Variable cfg : EvModel.config.
Variable beh : list (entry D) -> list (act D).
Notation es := (es D).
Definition turn (s : es) : es :=
  mkEs D (arduino_millis (s_now D s)) (s_map D s) (s_pipe D s) (s_pool D s) (s_objs D s) (s_loc D s) (s_kept D s) (s_log D s).
(** As EvModel.do_act *)
Fixpoint wact (fuel : nat) (a : act D) (s : es) : outcome es :=
  s' <- match a with
        | ASchedule _ id t d => schedule D W L dbg id t d s
        | AAttach _ id h => attach D W dbg cfg id h s
        | AWait _ dt => Ok (advance D (Z.of_N dt) s)
        | ATrigger _ id d =>
            match fuel with
            | O => Fuel
            | S f =>
                '(o, s1) <- event D L dbg id 0 d s ;;
                match o with
                | None => sassert dbg false ;;; UB
                | Some n => s2 <- trigger_ev D dbg beh (wact f) id d s1 ;; Ok (release D n s2)
                end
            end
        | AKeep _ id t d => keep_event D L dbg id t d s
        | AScheduleKept _ k => schedule_kept D W dbg k s
        | ATriggerKept _ k => match fuel with O => Fuel | S f => trigger_kept D dbg beh (wact f) k s end
        | ADropKept _ k => drop_kept D k s
        | ALoop _ => loop_with D dbg cfg beh (match fuel with O => fun _ _ => Fuel | S f => wact f end) s
        end ;;
  Ok (turn s').
Fixpoint wrun (fuel : nat) (acts : list (act D)) (s : es) : outcome es :=
  match acts with [] => Ok s | a :: acts' => s1 <- wact fuel a s ;; wrun fuel acts' s1 end.
End Ev.
