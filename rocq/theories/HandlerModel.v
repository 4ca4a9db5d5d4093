(** Model of EventHandler (eventsystem.hpp:68-89) and of EventSystem::detach (eventsystem.hpp:120). Event systems are numbered;
    Some n is a pointer to event system n, None is nullptr. *)
From Coq Require Import List Arith Bool.
From Verif Require Import Base EvModel.
Import ListNotations.

Definition isnull (p : option nat) : bool := match p with None => true | Some _ => false end.

(** eventsystem.hpp:88, _evsys *)
Record handler := mkHandler { h_evsys : option nat }.
(** eventsystem.hpp:70 *)
Definition handler_new (p : option nat) : handler := mkHandler p.
(** eventsystem.hpp:74-78 *)
Definition attach_event_system (dbg : bool) (p : option nat) (h : handler) : outcome handler :=
  sassert dbg (isnull (h_evsys h)) ;;;
  sassert dbg (negb (isnull p)) ;;;
  Ok (mkHandler p).
(** eventsystem.hpp:81-84 *)
Definition evsys (dbg : bool) (h : handler) : outcome (option nat) :=
  sassert dbg (negb (isnull (h_evsys h))) ;;; Ok (h_evsys h).
(** eventsystem.hpp:72: a handler that does not override handle_event. A call of it has no effect besides. *)
Definition handle_event (dbg : bool) (h : handler) : outcome handler := sassert dbg false ;;; Ok h.

(** A handler constructed with [p], then given each of [ps] with attach_event_system *)
Fixpoint attach_all (dbg : bool) (ps : list (option nat)) (h : handler) : outcome handler :=
  match ps with [] => Ok h | p :: ps' => h1 <- attach_event_system dbg p h ;; attach_all dbg ps' h1 end.

(** eventsystem.hpp:120; [h] is not looked at *)
Definition detach (D : Type) (dbg : bool) (h : nat) (s : es D) : outcome (es D) := sassert dbg false ;;; Ok s.
