(** Property C98: data of events. *)
From Coq Require Import ZArith Bool List.
From Verif Require Import Base FloatModel DataModel.
Open Scope Z_scope.

(** The getter of the type that was stored gives what was stored, in both builds *)
Lemma own : forall dbg f n, get_value dbg (Some (VFloat f)) = Ok f /\ get_unsigned dbg (Some (VUnsigned n)) = Ok n /\
  get_ms dbg (Some (VMs n)) = Ok n /\ get_s dbg (Some (VSec n)) = Ok n.
Proof. intros [] f n; repeat split. Qed.
Theorem C98_own : forall dbg f n, get_value dbg (Some (VFloat f)) = Ok f /\ get_unsigned dbg (Some (VUnsigned n)) = Ok n /\
  get_ms dbg (Some (VMs n)) = Ok n /\ get_s dbg (Some (VSec n)) = Ok n.
Proof. exact own. Qed.
Print Assumptions C98_own.
Example C98_own_case : get_ms false (Some (VMs 1500)) = Ok 1500 /\ get_value true (Some (VFloat (f_ofZ 3))) = Ok (f_ofZ 3).
Proof. split; reflexivity. Qed.
(** Whatever a getter returns is what was stored under its own type, or zero out of an empty object in a release build: milliseconds
    are never read as seconds *)
Lemma only_own : forall dbg d,
  (forall x, get_value dbg d = Ok x -> d = Some (VFloat x) \/ (dbg = false /\ d = None /\ x = f_zero)) /\
  (forall n, get_unsigned dbg d = Ok n -> d = Some (VUnsigned n) \/ (dbg = false /\ d = None /\ n = 0)) /\
  (forall n, get_ms dbg d = Ok n -> d = Some (VMs n) \/ (dbg = false /\ d = None /\ n = 0)) /\
  (forall n, get_s dbg d = Ok n -> d = Some (VSec n) \/ (dbg = false /\ d = None /\ n = 0)).
Proof.
  intros [] [[f | k | k | k] |]; (split; [| split; [| split]]); intros r H; (discriminate H || (injection H as <-; auto)).
Qed.
Theorem C98_only_own : forall dbg d,
  (forall x, get_value dbg d = Ok x -> d = Some (VFloat x) \/ (dbg = false /\ d = None /\ x = f_zero)) /\
  (forall n, get_unsigned dbg d = Ok n -> d = Some (VUnsigned n) \/ (dbg = false /\ d = None /\ n = 0)) /\
  (forall n, get_ms dbg d = Ok n -> d = Some (VMs n) \/ (dbg = false /\ d = None /\ n = 0)) /\
  (forall n, get_s dbg d = Ok n -> d = Some (VSec n) \/ (dbg = false /\ d = None /\ n = 0)).
Proof. exact only_own. Qed.
Print Assumptions C98_only_own.
Example C98_only_own_case : get_unsigned false None = Ok 0 /\ get_unsigned true (Some (VUnsigned 7)) = Ok 7 /\ get_unsigned false (Some (VMs 7)) = Throw.
Proof. auto. Qed.
(** Every other use stops: in a debug build at the assertion, in a release build with an exception *)
Lemma other : forall d,
  (forall dbg, (d = None -> get_value dbg d = if dbg then Halt else Ok f_zero) /\
    (forall v, d = Some v -> (forall f, v <> VFloat f) -> get_value dbg d = if dbg then Halt else Throw)) /\
  (forall dbg, (d = None -> get_unsigned dbg d = if dbg then Halt else Ok 0) /\
    (forall v, d = Some v -> (forall n, v <> VUnsigned n) -> get_unsigned dbg d = if dbg then Halt else Throw)) /\
  (forall dbg, (d = None -> get_ms dbg d = if dbg then Halt else Ok 0) /\
    (forall v, d = Some v -> (forall n, v <> VMs n) -> get_ms dbg d = if dbg then Halt else Throw)) /\
  (forall dbg, (d = None -> get_s dbg d = if dbg then Halt else Ok 0) /\
    (forall v, d = Some v -> (forall n, v <> VSec n) -> get_s dbg d = if dbg then Halt else Throw)).
Proof.
  intros d. split; [| split; [| split]]; intros dbg; (split; [intros ->; now destruct dbg |]); intros [f | n | n | n] -> N; destruct dbg; try reflexivity;
    exfalso; now apply (N f) || now apply (N n).
Qed.
Theorem C98_other : forall d,
  (forall dbg, (d = None -> get_value dbg d = if dbg then Halt else Ok f_zero) /\
    (forall v, d = Some v -> (forall f, v <> VFloat f) -> get_value dbg d = if dbg then Halt else Throw)) /\
  (forall dbg, (d = None -> get_unsigned dbg d = if dbg then Halt else Ok 0) /\
    (forall v, d = Some v -> (forall n, v <> VUnsigned n) -> get_unsigned dbg d = if dbg then Halt else Throw)) /\
  (forall dbg, (d = None -> get_ms dbg d = if dbg then Halt else Ok 0) /\
    (forall v, d = Some v -> (forall n, v <> VMs n) -> get_ms dbg d = if dbg then Halt else Throw)) /\
  (forall dbg, (d = None -> get_s dbg d = if dbg then Halt else Ok 0) /\
    (forall v, d = Some v -> (forall n, v <> VSec n) -> get_s dbg d = if dbg then Halt else Throw)).
Proof. exact other. Qed.
Print Assumptions C98_other.
Example C98_case : get_ms true (Some (VMs 1500)) = Ok 1500 /\ get_s false (Some (VMs 1500)) = Throw /\ get_s true (Some (VMs 1500)) = Halt.
Proof. auto. Qed.
