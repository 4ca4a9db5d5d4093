(** Model of the filters of FilterModel in a program whose exception handler (core/exception.cpp:26-34) leaves throw_exception by a C++
    exception that the program catches around value(sample): what the objects are left with. None: the call raised. *)
From Coq Require Import ZArith Bool List.
From Verif Require Import Base FloatModel FilterModel.
Import ListNotations.
Open Scope Z_scope.

(** bandpass.hpp:58-84. The exception is raised at line 74, after ++_rejections. *)
Definition bp_caught (s : float) (f : bandpass) : option float * bandpass :=
  let f := if f_eq (bp_value f) bp_default then bp_reset s f else f in
  let f := match bc_mode (bp_cfg f) with RELATIVE => bp_limits f | ABSOLUTE => f end in
  if f_ge s (bp_lower f) && f_le s (bp_upper f) then (Some s, mkBP (bp_cfg f) s (bp_lower f) (bp_upper f) 0)
  else
    let f := mkBP (bp_cfg f) (bp_value f) (bp_lower f) (bp_upper f) (bp_rejections f + 1) in
    if bc_limit (bp_cfg f) <? bp_rejections f then
      if bc_throw (bp_cfg f) then (None, f) else (Some s, mkBP (bp_cfg f) s (bp_lower f) (bp_upper f) (bp_rejections f))
    else (Some (bp_value f), f).
(** invert.hpp:34-37: the assertion comes first *)
Definition invert_caught (dbg : bool) (s : float) (f : invert) : option float * invert :=
  if dbg && negb (f_ge s (in_lo f) && f_le s (in_hi f)) then (None, f)
  else let v := f_sub (in_hi f) (f_sub s (in_lo f)) in (Some v, mkInv (in_lo f) (in_hi f) v).
(** mapped_range.hpp:46-60 *)
Definition mapped_caught (s : float) (f : mapped) : option float * mapped :=
  let out := f_lt s (mr_ilo f) || f_gt s (mr_ihi f) in
  if out && mr_throw f then (None, f)
  else
    let s := if out then std_clamp s (mr_ilo f) (mr_ihi f) else s in
    let v := map_line f s in (Some v, mkMap (mr_ilo f) (mr_ihi f) (mr_olo f) (mr_ohi f) (mr_throw f) v).

(** The interface (filter.hpp:7-24) and the five filters; EWMA and Passthrough raise nothing. *)
Record cfilter := mkCF { CSt : Type; cst : CSt; cstep : float -> CSt -> option float * CSt; ccur : CSt -> float }.
Definition c_ewma (f : ewma) : cfilter := mkCF ewma f (fun x s => let (y, s') := ewma_value x s in (Some y, s')) ew_value.
Definition c_bandpass (f : bandpass) : cfilter := mkCF bandpass f bp_caught bp_value.
Definition c_invert (dbg : bool) (f : invert) : cfilter := mkCF invert f (invert_caught dbg) in_value.
Definition c_mapped (f : mapped) : cfilter := mkCF mapped f mapped_caught mr_value.
Definition c_passthrough (v : float) : cfilter := mkCF float v (fun x _ => (Some x, x)) (fun s => s).
Definition c_run (x : float) (f : cfilter) : option float * cfilter :=
  let (y, s) := cstep f x (cst f) in (y, mkCF (CSt f) s (cstep f) (ccur f)).
Definition c_value (f : cfilter) : float := ccur f (cst f).

(** filterstack.hpp:31-38; an exception leaves the loop *)
Fixpoint c_stack (dbg : bool) (x : float) (s : list (option cfilter)) : option float * list (option cfilter) :=
  match s with
  | [] => (Some x, [])
  | None :: s' => if dbg then (None, s) else let (y, s'') := c_stack dbg x s' in (y, None :: s'')
  | Some f :: s' =>
      match c_run x f with
      | (Some y, f') => let (z, s'') := c_stack dbg y s' in (z, Some f' :: s'')
      | (None, f') => (None, Some f' :: s')
      end
  end.
