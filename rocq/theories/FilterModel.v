(** Model of filter/implementations/{ewma,bandpass,invert,mapped_range,passthrough}.hpp and filter/filterstack.hpp, for
    ValueType = float. In the stack a filter is its state together with what value(sample), value() and reset_to do to it. *)
From Coq Require Import ZArith Bool List.
From Verif Require Import Base FloatModel.
Import ListNotations.
Open Scope Z_scope.

(** ** EWMA *)
(** ewma.hpp:50-53 *)
Record ewma := mkEw { ew_k : float; ew_n : float; ew_value : float }.
(** ewma.hpp:19-21 *)
Definition ewma_new (k : float) : ewma := mkEw k f_zero f_zero.
(** std::min(a, b): b if b < a, else a *)
Definition f_min (a b : float) : float := if f_lt b a then b else a.
(** ewma.hpp:28-34 *)
Definition ewma_value (s : float) (f : ewma) : float * ewma :=
  if f_eq (ew_n f) (f_ofZ 0) then (s, mkEw (ew_k f) (f_add (ew_n f) (f_ofZ 1)) s)
  else
    let n := f_add (ew_n f) (f_ofZ 1) in
    let v := f_add (ew_value f) (f_div (f_sub s (ew_value f)) (f_min n (ew_k f))) in
    (v, mkEw (ew_k f) n v).
(** ewma.hpp:44-47 *)
Definition ewma_reset (v : float) (f : ewma) : ewma := mkEw (ew_k f) f_zero v.

(** ** BandPass *)
Inductive bp_mode := RELATIVE | ABSOLUTE.
(** bandpass.hpp:20-39. [bc_width] stands for std::pow(mantissa * 10, decades + 1): the library function is not modelled. *)
Record bp_config := mkBC { bc_mode : bp_mode; bc_width : float; bc_offset : float; bc_limit : Z; bc_throw : bool }.
(** bandpass.hpp:103-109 *)
Record bandpass := mkBP { bp_cfg : bp_config; bp_value : float; bp_lower : float; bp_upper : float; bp_rejections : Z }.
(** bandpass.hpp:101: float(-789.123456789) = -12928999 / 2^14 *)
Definition bp_default : float := f_div (f_ofZ (-12928999)) (f_ofZ 16384).
(** bandpass.hpp:94-98: limits around the value given *)
Definition bp_mid (c : bp_config) (v : float) : float := match bc_mode c with RELATIVE => f_add v (bc_offset c) | ABSOLUTE => bc_offset c end.
Definition bp_limits (f : bandpass) : bandpass :=
  let m := bp_mid (bp_cfg f) (bp_value f) in
  mkBP (bp_cfg f) (bp_value f) (f_sub m (bc_width (bp_cfg f))) (f_add m (bc_width (bp_cfg f))) (bp_rejections f).
(** bandpass.hpp:51-55; the assertion on the mantissa is not modelled *)
Definition bp_new (c : bp_config) : bandpass := bp_limits (mkBP c bp_default f_zero f_zero 0).
(** bandpass.hpp:91 *)
Definition bp_reset (v : float) (f : bandpass) : bandpass := mkBP (bp_cfg f) v (bp_lower f) (bp_upper f) (bp_rejections f).
(** bandpass.hpp:58-78; _rejections is an int taken as unbounded *)
Definition bp_sample (s : float) (f : bandpass) : outcome bandpass :=
  let f := if f_eq (bp_value f) bp_default then bp_reset s f else f in
  let f := match bc_mode (bp_cfg f) with RELATIVE => bp_limits f | ABSOLUTE => f end in
  if f_ge s (bp_lower f) && f_le s (bp_upper f) then Ok (mkBP (bp_cfg f) s (bp_lower f) (bp_upper f) 0)
  else
    let r := bp_rejections f + 1 in
    if bc_limit (bp_cfg f) <? r then
      if bc_throw (bp_cfg f) then Halt else Ok (mkBP (bp_cfg f) s (bp_lower f) (bp_upper f) r)
    else Ok (mkBP (bp_cfg f) (bp_value f) (bp_lower f) (bp_upper f) r).
(** bandpass.hpp:81-84 *)
Definition bp_step (s : float) (f : bandpass) : outcome (float * bandpass) := f' <- bp_sample s f ;; Ok (bp_value f', f').

(** ** Invert *)
Record invert := mkInv { in_lo : float; in_hi : float; in_value : float }.
(** invert.hpp:34-37 *)
Definition invert_value (dbg : bool) (s : float) (f : invert) : outcome (float * invert) :=
  sassert dbg (f_ge s (in_lo f) && f_le s (in_hi f)) ;;;
  let v := f_sub (in_hi f) (f_sub s (in_lo f)) in Ok (v, mkInv (in_lo f) (in_hi f) v).
(** invert.hpp:47 *)
Definition invert_reset (v : float) (f : invert) : invert := mkInv (in_lo f) (in_hi f) v.

(** ** MappedRange *)
Record mapped := mkMap { mr_ilo : float; mr_ihi : float; mr_olo : float; mr_ohi : float; mr_throw : bool; mr_value : float }.
(** mapped_range.hpp:30-43 *)
Definition percentage (lo hi : float) : mapped := mkMap lo hi (f_ofZ 0) (f_ofZ 100) false f_zero.
Definition permillage (lo hi : float) : mapped := mkMap lo hi (f_ofZ 0) (f_ofZ 1000) false f_zero.
(** std::clamp(x, lo, hi): x < lo ? lo : hi < x ? hi : x *)
Definition std_clamp (x lo hi : float) : float := if f_lt x lo then lo else if f_lt hi x then hi else x.
(** mapped_range.hpp:57-59 *)
Definition map_line (f : mapped) (s : float) : float :=
  f_add (mr_olo f) (f_mul (f_div (f_sub s (mr_ilo f)) (f_sub (mr_ihi f) (mr_ilo f))) (f_sub (mr_ohi f) (mr_olo f))).
(** mapped_range.hpp:46-60 *)
Definition mapped_value (s : float) (f : mapped) : outcome (float * mapped) :=
  let out := f_lt s (mr_ilo f) || f_gt s (mr_ihi f) in
  if out && mr_throw f then Halt
  else
    let s := if out then std_clamp s (mr_ilo f) (mr_ihi f) else s in
    let v := map_line f s in Ok (v, mkMap (mr_ilo f) (mr_ihi f) (mr_olo f) (mr_ohi f) (mr_throw f) v).
Definition mapped_reset (v : float) (f : mapped) : mapped := mkMap (mr_ilo f) (mr_ihi f) (mr_olo f) (mr_ohi f) (mr_throw f) v.

(** ** The filters as one interface (filter.hpp:7-24) *)
Record filter := mkFilter { St : Type; st : St; step : float -> St -> outcome (float * St); cur : St -> float; rst : float -> St -> St }.
Definition run_filter (x : float) (f : filter) : outcome (float * filter) :=
  '(y, s) <- step f x (st f) ;; Ok (y, mkFilter (St f) s (step f) (cur f) (rst f)).
Definition filter_value (f : filter) : float := cur f (st f).
Definition filter_reset (x : float) (f : filter) : filter := mkFilter (St f) (rst f x (st f)) (step f) (cur f) (rst f).
Definition of_ewma (f : ewma) : filter := mkFilter ewma f (fun x s => Ok (ewma_value x s)) ew_value ewma_reset.
Definition of_bandpass (f : bandpass) : filter := mkFilter bandpass f bp_step bp_value bp_reset.
Definition of_invert (dbg : bool) (f : invert) : filter := mkFilter invert f (invert_value dbg) in_value invert_reset.
Definition of_mapped (f : mapped) : filter := mkFilter mapped f mapped_value mr_value mapped_reset.
(** passthrough.hpp:23-36 *)
Definition passthrough (v : float) : filter := mkFilter float v (fun x _ => Ok (x, x)) (fun s => s) (fun x _ => x).

(** ** Stack: None is a null pointer *)
Definition stack := list (option filter).
(** filterstack.hpp:19-22; max_size() of std::vector is taken as unreachable *)
Definition attach (f : option filter) (s : stack) : stack := s ++ [f].
(** filterstack.hpp:31-38 *)
Fixpoint stack_value (dbg : bool) (x : float) (s : stack) : outcome (float * stack) :=
  match s with
  | [] => Ok (x, [])
  | None :: s' => if dbg then Halt else '(y, s'') <- stack_value dbg x s' ;; Ok (y, None :: s'')
  | Some f :: s' => '(y, f') <- run_filter x f ;; '(z, s'') <- stack_value dbg y s' ;; Ok (z, Some f' :: s'')
  end.
(** filterstack.hpp:41: back() of a null pointer is UB *)
Definition stack_current (s : stack) : outcome float :=
  match s with
  | [] => Ok (f_ofZ 0)
  | _ => match last s None with Some f => Ok (filter_value f) | None => UB end
  end.
(** filterstack.hpp:47-51; a null pointer is dereferenced *)
Fixpoint stack_reset (x : float) (s : stack) : outcome stack :=
  match s with
  | [] => Ok []
  | None :: _ => UB
  | Some f :: s' => s'' <- stack_reset x s' ;; Ok (Some (filter_reset x f) :: s'')
  end.
(** detach_filter (filterstack.hpp:25-28) cannot be instantiated: std::vector has no member remove. *)
(** bandpass.hpp:96-97: the half width of the band, [pow] being std::pow on floats *)
Definition bp_width (pow : float -> float -> float) (mantissa decades : float) : float :=
  pow (f_mul mantissa (f_ofZ 10)) (f_add decades (f_ofZ 1)).
