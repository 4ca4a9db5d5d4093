(** Property C131: tasks which an event system runs again and again, each after its own period. *)
From Coq Require Import List Arith ZArith Bool.
From Verif Require Import Base EvModel.
Import ListNotations.
Local Open Scope nat_scope.

(** What a task should do: given the moments at which somebody looks, it runs at the first of them at which its period has
    passed since it ran last; [sees t] is the moment [t] as it is seen. *)
Fixpoint ticks (sees : Z -> Z) (every due : Z) (ts : list Z) : list Z :=
  match ts with
  | [] => []
  | t :: ts' => if (due <=? sees t)%Z then t :: ticks sees every (t + every) ts' else ticks sees every due ts'
  end.

Section Tasks.
Variable D : Type.
(** ** A program over EventSystem: a task is an event whose handler schedules it again *)
Record task := mkTask { t_id : nat; t_every : Z; t_data : D }.
Definition again (ks : list task) : list (entry D) -> list (act D) := fun log =>
  match rev log with
  | LCall _ _ id d _ :: _ => match find (fun k => t_id k =? id) ks with Some k => [ASchedule D id (t_every k) d] | None => [] end
  | _ => []
  end.
(** One handler for each task, then each is scheduled for the first time *)
Definition attaches (ks : list task) : list (op D) := map (fun k => OAct D (AAttach D (t_id k) (t_id k))) ks.
Definition schedules (ks : list task) : list (op D) := map (fun k => OAct D (ASchedule D (t_id k) (t_every k) (t_data k))) ks.
Definition start (ks : list task) : list (op D) := attaches ks ++ schedules ks.

(** The main loop of the program, while the clock is at most [till]: some time passes, then loop() is called. Also returns the
    moments of the calls of loop(). *)
Section Rounds.
Variable W : Z.
Variable L : nat.
Variable dbg : bool.
Variable cfg : config.
Variable beh : list (entry D) -> list (act D).
Variable till : Z.
Variable fuel : nat.
Fixpoint rounds (dts : list N) (s : es D) : outcome (list Z * es D) :=
  match dts with
  | [] => Ok ([], s)
  | dt :: dts' =>
      s1 <- step D W L dbg cfg beh fuel (OAct D (AWait D dt)) s ;;
      if (till <? s_now D s1)%Z then Ok ([], s1) else
      s2 <- step D W L dbg cfg beh fuel (OLoop D) s1 ;;
      '(ts, s3) <- rounds dts' s2 ;;
      Ok (s_now D s1 :: ts, s3)
  end.
End Rounds.

(** When the handlers of [id] were called, and with what *)
Definition called (id : nat) (log : list (entry D)) : list (nat * Z * D) :=
  flat_map (fun x => match x with LCall _ h i d now => if i =? id then [(h, now, d)] else [] | _ => [] end) log.
End Tasks.
Arguments mkTask {D}.
Arguments t_id {D}.
Arguments t_every {D}.
Arguments t_data {D}.
