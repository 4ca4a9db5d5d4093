(** Property C138: a client that follows a schedule from one block to the next, day after day. *)
From Coq Require Import ZArith List.
From Verif Require Import Base SchedModel SchedSpec.
Import ListNotations.
Open Scope Z_scope.

Section Follow.
Context {V : Type}.
Variable zero : V.
(** [now] counts seconds since some midnight; the schedule is asked with the time of day *)
Definition clock (now : Z) : Z := now mod day.
Definition due (s : list (block V)) (now : Z) : V := value_at V zero s (clock now).
(** What the client does: it looks at the schedule and sleeps until the start of the next block, or midnight. *)
Definition sleep (s : list (block V)) (now : Z) : Z := now - clock now + start_of_next_block V s (clock now).
Fixpoint wake (s : list (block V)) (now : Z) (n : nat) : Z := match n with O => now | S n' => sleep s (wake s now n') end.

(** Schedules as one writes them: in order, no two blocks at once; [all_day]: some block at any time *)
Definition in_order (l : list (block V)) : Prop := forall l1 b b' l2, l = l1 ++ b :: b' :: l2 -> bstart b <= bstart b'.
Definition disjoint (l : list (block V)) : Prop := forall l1 b l2 b' l3 t, l = l1 ++ b :: l2 ++ b' :: l3 -> covers b t -> covers b' t -> False.
Definition all_day (l : list (block V)) : Prop := forall t, 0 <= t < day -> exists b, In b l /\ covers b t.
Definition accepted (dbg : bool) (blocks s : list (block V)) : Prop :=
  sched_new V dbg blocks = Ok s /\ Forall (fun b => 0 <= bstart b < day) blocks /\ (dbg = true \/ Forall (fun b => 0 < bduration b <= day) blocks).
End Follow.
