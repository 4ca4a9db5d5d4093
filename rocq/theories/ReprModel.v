(** Model of time representations (core/utils/time_repr.hpp, core/utils/time_repr.cpp) over kernel times. *)
From Coq Require Import List Arith ZArith Bool.
From Verif Require Import Base KTimeModel.
Import ListNotations.
Open Scope Z_scope.

(** "us", "ms", "s", "m", "h", "d" *)
Definition name (u : kunit) : list nat :=
  match u with
  | US => [117; 115] | MS => [109; 115] | SEC => [115] | MIN => [109] | HOUR => [104] | DAY => [100]
  end%nat.
(** k_time_X(t) for a time of [x] counts of [u]: the same unit is copied (unit.hpp:23), another one converted (unit.hpp:36-37) *)
Definition as_unit (this u : kunit) (x : Z) : Z :=
  match this, u with
  | US, US | MS, MS | SEC, SEC | MIN, MIN | HOUR, HOUR | DAY, DAY => x
  | _, _ => from_other u this x
  end.

(** time_repr.hpp:38-54: the value and the unit; [None] is "0unknown" *)
Definition choose (u : kunit) (x : Z) : option (kunit * Z) :=
  if as_unit US u x <? 1000 then Some (US, as_unit US u x)
  else if as_unit MS u x <? 1000 then Some (MS, as_unit MS u x)
  else if as_unit SEC u x <? 900 then Some (SEC, as_unit SEC u x)
  else if as_unit MIN u x <? 1440 then Some (MIN, as_unit MIN u x)
  else if as_unit HOUR u x <? 24 then Some (HOUR, as_unit HOUR u x)
  else if 0 <? as_unit DAY u x then Some (DAY, as_unit DAY u x)
  else None.

(** snprintf's PRId64 *)
Fixpoint show_digits (fuel : nat) (n : Z) (acc : list nat) : list nat :=
  match fuel with
  | O => acc
  | S f => let acc' := (48 + Z.to_nat (n mod 10))%nat :: acc in if n / 10 =? 0 then acc' else show_digits f (n / 10) acc'
  end.
Definition show (n : Z) : list nat :=
  if n <? 0 then 45%nat :: show_digits (S (Z.to_nat (Z.log2 (- n)))) (- n) [] else show_digits (S (Z.to_nat (Z.log2 n))) n [].

(** time_repr.hpp:34-61; "Error" when the text does not fit in 64 characters *)
Definition repr (u : kunit) (x : Z) : list nat :=
  let s := match choose u x with
           | Some (w, v) => show v ++ name w
           | None => [48; 117; 110; 107; 110; 111; 119; 110]%nat
           end in
  if (64 <=? length s)%nat then [69; 114; 114; 111; 114]%nat else s.

Definition is_digit (c : nat) : bool := ((48 <=? c) && (c <=? 57))%nat.
(** find_first_not_of("0123456789") and the two substrings *)
Fixpoint span_digits (l : list nat) : list nat * list nat :=
  match l with
  | [] => ([], [])
  | c :: t => if is_digit c then let '(a, b) := span_digits t in (c :: a, b) else ([], l)
  end.
Fixpoint value_of (acc : Z) (l : list nat) : Z :=
  match l with [] => acc | c :: t => value_of (10 * acc + (Z.of_nat c - 48)) t end.
(** std::stoi on digits: invalid_argument without a digit, out_of_range above INT_MAX (32 bits) *)
Definition stoi (l : list nat) : outcome Z :=
  match l with [] => Throw | _ => let v := value_of 0 l in if 2 ^ 31 <=? v then Throw else Ok v end.
Fixpoint same_text (a b : list nat) : bool :=
  match a, b with [], [] => true | x :: a', y :: b' => (x =? y)%nat && same_text a' b' | _, _ => false end.
(** time_repr.cpp:30-50 *)
Definition parse_time (input : list nat) : outcome (option (kunit * Z)) :=
  match input with
  | [] => Ok None
  | _ =>
      let '(ds, unit) := span_digits input in
      match unit with
      | [] => Ok None
      | _ =>
          v <- stoi ds ;;
          Ok (if same_text unit (name US) then Some (US, v)
              else if same_text unit (name MS) then Some (MS, v)
              else if same_text unit (name SEC) then Some (SEC, v)
              else if same_text unit (name MIN) then Some (MIN, v)
              else if same_text unit (name HOUR) then Some (HOUR, v)
              else if same_text unit (name DAY) then Some (DAY, v)
              else None)
      end
  end.
