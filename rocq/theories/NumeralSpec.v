(** Property C127: the texts that are numbers (C17 7.22.1.3), and the numbers they denote. *)
From Coq Require Import List Arith ZArith Bool Reals.
From Flocq Require Import Core IEEE754.BinarySingleNaN.
From Verif Require Import FloatModel FloatFacts.
Import ListNotations.
Open Scope nat_scope.

Definition blank (c : nat) : Prop := c = 32 \/ 9 <= c <= 13.
(** A digit and its value *)
Definition digit10 (c : nat) (d : Z) : Prop := 48 <= c <= 57 /\ d = (Z.of_nat c - 48)%Z.
Definition digit16 (c : nat) (d : Z) : Prop :=
  digit10 c d \/ 97 <= c <= 102 /\ d = (Z.of_nat c - 87)%Z \/ 65 <= c <= 70 /\ d = (Z.of_nat c - 55)%Z.
(** The value of digits in base [b] *)
Definition positional (b : Z) (ds : list Z) : Z := fold_left (fun a d => (a * b + d)%Z) ds 0%Z.
(** An optional sign; [s] says negative *)
Inductive signed : list nat -> bool -> Prop := S_none : signed [] false | S_plus : signed [43] false | S_minus : signed [45] true.
(** The text is the lower-case word [w], capitals allowed *)
Definition spells (w t : list nat) : Prop := Forall2 (fun a c => c = a \/ c + 32 = a) w t.
(** Digits, a point and more digits: at least one digit, the point may be missing; digits before and behind the point *)
Definition fraction (digit : nat -> Z -> Prop) (t : list nat) (ip fp : list Z) : Prop :=
  exists a b, Forall2 digit a ip /\ Forall2 digit b fp /\ ip ++ fp <> [] /\ (t = a ++ [46] ++ b \/ t = a /\ b = []).
(** An optional exponent behind one of the letters *)
Definition power (letters : list nat) (t : list nat) (z : Z) : Prop :=
  t = [] /\ z = 0%Z \/
  exists c sg s a ds, t = c :: sg ++ a /\ In c letters /\ signed sg s /\ Forall2 digit10 a ds /\ a <> [] /\ z = (if s then - positional 10 ds else positional 10 ds)%Z.

Inductive amount := Finite (x : R) | Infinite | NotANumber.
(** Unsigned texts *)
Inductive magnitude : list nat -> amount -> Prop :=
| M_dec t e ip fp z : fraction digit10 t ip fp -> power [101; 69] e z ->
    magnitude (t ++ e) (Finite (IZR (positional 10 (ip ++ fp)) * powerRZ 10 (z - Z.of_nat (length fp))))
| M_hex x t e ip fp z : x = 120 \/ x = 88 -> fraction digit16 t ip fp -> power [112; 80] e z ->
    magnitude ([48; x] ++ t ++ e) (Finite (IZR (positional 16 (ip ++ fp)) * powerRZ 2 (z - 4 * Z.of_nat (length fp))))
| M_inf t : spells [105; 110; 102] t \/ spells [105; 110; 102; 105; 110; 105; 116; 121] t -> magnitude t Infinite
| M_nan t : spells [110; 97; 110] t -> magnitude t NotANumber
| M_nan_chars t u : spells [110; 97; 110] t -> Forall (fun c => 48 <= c <= 57 \/ 65 <= c <= 90 \/ 97 <= c <= 122 \/ c = 95) u ->
    magnitude (t ++ [40] ++ u ++ [41]) NotANumber.
Definition denotes (t : list nat) (s : bool) (x : amount) : Prop :=
  exists bl sg m, t = bl ++ sg ++ m /\ Forall blank bl /\ signed sg s /\ magnitude m x.
(** The float for a sign and an amount: the nearest, infinite when that is beyond all floats *)
Definition reads_as (s : bool) (x : amount) (y : float) : Prop :=
  match x with
  | Finite r => if Rlt_bool (rnd r) big then finite y = true /\ val y = (if s then - rnd r else rnd r)%R /\ Bsign y = s else y = B754_infinity s
  | Infinite => y = B754_infinity s
  | NotANumber => y = B754_nan
  end.
