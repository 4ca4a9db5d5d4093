(** The event system over lists with handlers which throw, and what is claimed of them. *)
From Coq Require Import List Arith ZArith Bool.
From Verif Require Import Base KTimeProofs EvModel EvSpec FlingModel.
Import ListNotations.
Local Open Scope nat_scope.

Section Spec.
Variable D : Type.
Notation sp := (sp D).
(** Delays up to [T] *)
Definition ftame (T : Z) (h : hact D) : Prop := match h with HAct _ a | HTry _ a => tame D T a | HThrow _ => True end.

(** A handler which does the same, and does not throw *)
Inductive calm : list (hact D) -> list (act D) -> Prop :=
| calm_nil : calm [] []
| calm_act a h l : calm h l -> calm (HAct D a :: h) (a :: l)
| calm_try a h l : calm h l -> calm (HTry D a :: h) (a :: l).

Variable dbg : bool.
Variables cap hcap : nat.
Variable sleeps : bool.
Variables idle max_sleep : Z.
Variable beh : list (entry D) -> list (hact D).

Section Trigger.
Variable rec : act D -> sp -> outcome (bool * sp).
Fixpoint fsp_acts (l : list (hact D)) (p : sp) : outcome (bool * sp) :=
  match l with
  | [] => Ok (false, p)
  | HThrow _ :: _ => Ok (true, p)
  | HAct _ a :: l' => '(b, p1) <- rec a p ;; if (b : bool) then Ok (true, p1) else fsp_acts l' p1
  | HTry _ a :: l' => '(_, p1) <- rec a p ;; fsp_acts l' p1
  end.
Fixpoint fsp_calls (id : nat) (d : D) (hs : list nat) (p : sp) : outcome (bool * sp) :=
  match hs with
  | [] => Ok (false, p)
  | h :: hs' => let p1 := sp_log D (LCall D h id d (p_now D p)) p in
      '(b, p2) <- fsp_acts (beh (p_log D p1)) p1 ;; if (b : bool) then Ok (true, p2) else fsp_calls id d hs' p2
  end.
Definition fsp_trigger (id : nat) (d : D) (p : sp) : outcome (bool * sp) :=
  match nth_error (p_hs D p) id with
  | None => if dbg then Halt else UB
  | Some hs => sassert dbg (negb (length hs =? 0)) ;;; fsp_calls id d hs p
  end.
End Trigger.

Definition fsp_trigger_kept (rec : act D -> sp -> outcome (bool * sp)) (k : nat) (p : sp) : outcome (bool * sp) :=
  '(x, p1) <- sp_take D k p ;;
  match x with
  | Some (id, t, d) =>
      '(b, p2) <- fsp_trigger rec id d (sp_busy D (S (p_busy D p)) p1) ;; Ok (b, sp_keep D (Some (id, t, d)) (sp_busy D (p_busy D p) p2))
  | None => if dbg then Halt else UB
  end.

Notation sleep := (sp_sleep D sleeps idle max_sleep).
Definition fsp_loop_with (rec : act D -> sp -> outcome (bool * sp)) (p : sp) : outcome (bool * sp) :=
  match p_pend D p with
  | [] => Ok (false, sleep p)
  | (due, (id, d)) :: rest =>
      if (due <=? near24 (p_now D p))%Z then
        '(b, p1) <- fsp_trigger rec id d
                (sp_log D (LFire D due id d (p_now D p)) (mkSp D (p_now D p) (p_hs D p) rest (S (p_busy D p)) (p_kept D p) (p_log D p))) ;;
        if (b : bool) then Ok (true, sp_busy D (p_busy D p) p1) else rec (ALoop D) (sp_busy D (p_busy D p) p1)
      else Ok (false, sleep p)
  end.

Fixpoint fsp_act (fuel : nat) (a : act D) (p : sp) : outcome (bool * sp) :=
  match a with
  | ATrigger _ id d =>
      match fuel with
      | 0 => Fuel
      | S f =>
          slot D dbg cap p ;;;
          '(b, p1) <- fsp_trigger (fsp_act f) id d (sp_busy D (S (p_busy D p)) p) ;; Ok (b, sp_busy D (p_busy D p) p1)
      end
  | ATriggerKept _ k => match fuel with 0 => Fuel | S f => fsp_trigger_kept (fsp_act f) k p end
  | ALoop _ => fsp_loop_with (match fuel with 0 => fun _ _ => Fuel | S f => fsp_act f end) p
  | ASchedule _ id t d => p1 <- sp_schedule D dbg cap id t d p ;; Ok (false, p1)
  | AAttach _ id h => p1 <- sp_attach D dbg hcap id h p ;; Ok (false, p1)
  | AWait _ dt => Ok (false, mkSp D (p_now D p + Z.of_N dt) (p_hs D p) (p_pend D p) (p_busy D p) (p_kept D p) (p_log D p))
  | AKeep _ id t d => p1 <- sp_keep_event D dbg cap id t d p ;; Ok (false, p1)
  | AScheduleKept _ k => p1 <- sp_schedule_kept D dbg cap k p ;; Ok (false, p1)
  | ADropKept _ k => p1 <- sp_drop_kept D k p ;; Ok (false, p1)
  end.
Fixpoint fsp_run (fuel : nat) (ops : list (act D)) (p : sp) : outcome sp :=
  match ops with [] => Ok p | a :: ops' => '(_, p1) <- fsp_act fuel a p ;; fsp_run fuel ops' p1 end.
End Spec.
