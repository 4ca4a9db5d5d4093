(** Model of Event::Data (eventsystem/eventsystem.hpp:31-52, eventsystem/eventsystem.cpp:5-31). *)
From Coq Require Import ZArith Bool List.
From Verif Require Import Base FloatModel.
Open Scope Z_scope.

(** eventsystem.hpp:50: the variant; times and unsigned numbers by their raw counts *)
Inductive value := VFloat (f : float) | VUnsigned (n : Z) | VSec (n : Z) | VMs (n : Z).
(** eventsystem.hpp:51; [None] for Data() *)
Definition data := option value.
Definition has_value (d : data) : bool := match d with Some _ => true | None => false end.

(** std::holds_alternative and std::get, which throws bad_variant_access for another alternative *)
Definition as_float (v : value) : option float := match v with VFloat f => Some f | _ => None end.
Definition as_unsigned (v : value) : option Z := match v with VUnsigned n => Some n | _ => None end.
Definition as_sec (v : value) : option Z := match v with VSec n => Some n | _ => None end.
Definition as_ms (v : value) : option Z := match v with VMs n => Some n | _ => None end.
Definition holds {A} (o : option A) : bool := match o with Some _ => true | None => false end.
(** The common shape of eventsystem.cpp:5-10, 12-17, 19-24 and 26-31 *)
Definition getter {A} (alt : value -> option A) (zero : A) (dbg : bool) (d : data) : outcome A :=
  sassert dbg (has_value d) ;;;
  match d with
  | None => Ok zero
  | Some v => sassert dbg (holds (alt v)) ;;; match alt v with Some a => Ok a | None => Throw end
  end.
Definition get_value := getter as_float f_zero.
Definition get_unsigned := getter as_unsigned 0.
Definition get_ms := getter as_ms 0.
Definition get_s := getter as_sec 0.
