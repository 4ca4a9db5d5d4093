(** Property C137: a lasting deviation, and what the output does at its limits. *)
From Coq Require Import ZArith Bool List Reals.
From Verif Require Import Base FloatModel PidModel PidSpec LawSpec.
Import ListNotations.
Open Scope Z_scope.

(** The integral term and the last reading after a sample: the term is kept within the limits. *)
Definition wound (p : proportionality) (P I lo hi : Z) (m : Z * Z) (q : Z * Z) : Z * Z :=
  let (i, l) := m in let (s, x) := q in
  (limitZ lo hi (i + I * (s - x) - match p with OnMeasurement => P * (x - l) | OnError => 0 end), x).
(** The outputs at samples (setpoint, reading) *)
Fixpoint lawsZ (p : proportionality) (P I D lo hi : Z) (m : Z * Z) (ss : list (Z * Z)) : list Z :=
  match ss with
  | [] => []
  | (s, x) :: ss' =>
      let m' := wound p P I lo hi m (s, x) in
      limitZ lo hi (match p with OnError => P * (s - x) | OnMeasurement => 0 end + fst m' - D * (x - snd m)) :: lawsZ p P I D lo hi m' ss'
  end.
(** Whole numbers small enough for float, one sample a second, every sample taken *)
Record whole (dbg : bool) (now0 : Z) (d : direction) (Kp Ki Kd : Z) (p : proportionality) (lo hi u x0 M : Z) (vc : cells * ctl) (ss : list (Z * (Z * Z))) : Prop := {
  whole_gains : 0 <= Kp /\ 0 <= Ki /\ 0 <= Kd;
  whole_size : 1 <= M <= 2 ^ 22 /\ Kp * (2 * M) <= 2 ^ 21 /\ Ki * (2 * M) <= 2 ^ 21 /\ Kd * (2 * M) <= 2 ^ 21;
  whole_limits : - 2 ^ 22 <= lo < hi /\ hi <= 2 ^ 22 /\ Z.abs u <= 2 ^ 24;
  whole_readings : Z.abs x0 <= M /\ Forall (fun q : Z * (Z * Z) => Z.abs (fst (snd q)) <= M /\ Z.abs (snd (snd q)) <= M) ss;
  whole_ready : ready dbg now0 d (setup 1000 (f_ofZ Kp) (f_ofZ Ki) (f_ofZ Kd) p (f_ofZ lo) (f_ofZ hi) (f_ofZ u) (f_ofZ x0)) vc;
  whole_taken : Forall (fun r => fst r = true) (outputs (map floats ss) vc) }.
(** Every response is the one before or further up *)
Fixpoint rising (a : R) (l : list R) : Prop := match l with [] => True | b :: l' => (a <= b)%R /\ rising b l' end.
