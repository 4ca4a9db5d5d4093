(** Model of to_float (core/utils/string.cpp:59-68) over the whole grammar of std::strtof; StrModel.to_float knows decimal digits only.
    std::strtof is library code: assumed as C17 7.22.1.3 describes it in the "C" locale, the result rounded to nearest, ties to even
    (as the standard recommends and glibc and newlib do), too large numbers giving HUGE_VALF, and reading no character beyond the
    first that cannot continue the number. *)
From Coq Require Import List Arith ZArith Bool.
From Flocq Require Import Core IEEE754.BinarySingleNaN.
From Verif Require Import Base FloatModel StrModel.
Import ListNotations.
Open Scope nat_scope.

Definition isspace (c : char) : bool := existsb (Nat.eqb c) [32; 9; 10; 11; 12; 13].
Definition lower (c : char) : char := if (65 <=? c) && (c <=? 90) then c + 32 else c.
Definition dec (c : char) : option Z := if (48 <=? c) && (c <=? 57) then Some (Z.of_nat c - 48)%Z else None.
Definition hex (c : char) : option Z :=
  match dec c with Some d => Some d | None => if (97 <=? lower c) && (lower c <=? 102) then Some (Z.of_nat (lower c) - 87)%Z else None end.
Definition alnum (c : char) : bool := match dec c with Some _ => true | None => ((97 <=? lower c) && (lower c <=? 122)) || (c =? 95) end.

(** The float nearest to n / d with sign [s] *)
Definition quotient (s : bool) (n : Z) (d : positive) : float :=
  match n with
  | Zpos p => SF2B _ (proj1 (Bdiv_correct_aux 24 128 prec24 emax128 mode_NE s p 0 false d 0))
  | _ => B754_zero s
  end.
(** n * b^e *)
Definition scaled (s : bool) (n b e : Z) : float := if (0 <=? e)%Z then quotient s (n * b ^ e) 1 else quotient s n (Z.to_pos (b ^ (- e))).

(** All below take the characters from the pointer on to the end of the block and give what is left; reading beyond the block is
    undefined. *)
Fixpoint skip_space (l : list char) : outcome (list char) :=
  match l with [] => UB | c :: t => if isspace c then skip_space t else Ok l end.
Definition sign (l : list char) : outcome (bool * list char) :=
  match l with [] => UB | c :: t => Ok (if c =? 45 then (true, t) else if c =? 43 then (false, t) else (false, l)) end.
(** Digits in base [b]: value, number of digits, rest *)
Fixpoint run (f : char -> option Z) (b acc : Z) (l : list char) : outcome (Z * nat * list char) :=
  match l with
  | [] => UB
  | c :: t => match f c with Some d => '(v, n, r) <- run f b (acc * b + d)%Z t ;; Ok (v, S n, r) | None => Ok (acc, 0, l) end
  end.
(** Digits with at most one point among them: value of the digits, number of them behind the point, rest; None without a digit *)
Definition mantissa (f : char -> option Z) (b : Z) (l : list char) : outcome (option (Z * nat * list char)) :=
  '(n, i, r) <- run f b 0 l ;;
  match r with
  | [] => UB
  | c :: t =>
      if c =? 46 then '(m, k, r') <- run f b n t ;; Ok (if i + k =? 0 then None else Some (m, k, r'))
      else Ok (if i =? 0 then None else Some (n, 0, r))
  end.
(** An exponent: the letter [e] in either case, a sign, digits; nothing is used up when that is not there *)
Definition exponent (e : char) (l : list char) : outcome (Z * list char) :=
  match l with
  | [] => UB
  | c :: t =>
      if lower c =? e then '(s, t') <- sign t ;; '(x, n, r) <- run dec 10 0 t' ;; Ok (if n =? 0 then (0%Z, l) else (if s then (- x)%Z else x, r))
      else Ok (0%Z, l)
  end.
(** A word in lower case, letters compared without case *)
Fixpoint word (w l : list char) : outcome (option (list char)) :=
  match w with
  | [] => Ok (Some l)
  | a :: w' => match l with [] => UB | c :: t => if lower c =? a then word w' t else Ok None end
  end.
(** Letters, digits and underscores up to a closing parenthesis *)
Fixpoint nan_chars (l : list char) : outcome (option (list char)) :=
  match l with [] => UB | c :: t => if c =? 41 then Ok (Some t) else if alnum c then nan_chars t else Ok None end.
Definition numeric (b : Z) (f : char -> option Z) (e : char) (base per : Z) (s : bool) (l : list char) : outcome (option (float * list char)) :=
  m <- mantissa f b l ;;
  match m with
  | None => Ok None
  | Some (n, k, r) => '(x, r') <- exponent e r ;; Ok (Some (scaled s n base (x - per * Z.of_nat k), r'))
  end.
Definition decimal_number := numeric 10 dec 101 10 1.
Definition hex_number := numeric 16 hex 112 2 4.
Definition special (s : bool) (l : list char) : outcome (option (float * list char)) :=
  i <- word [105; 110; 102] l ;;
  match i with
  | Some r => j <- word [105; 110; 105; 116; 121] r ;; Ok (Some (f_inf s, match j with Some r' => r' | None => r end))
  | None =>
      n <- word [110; 97; 110] l ;;
      match n with
      | None => Ok None
      | Some r =>
          match r with
          | [] => UB
          | c :: t => if c =? 40 then q <- nan_chars t ;; Ok (Some (f_nan, match q with Some r' => r' | None => r end)) else Ok (Some (f_nan, r))
          end
      end
  end.
(** None: no conversion, end is the start *)
Definition strtof (l : list char) : outcome (option (float * list char)) :=
  l0 <- skip_space l ;;
  '(s, l1) <- sign l0 ;;
  match l1 with
  | [] => UB
  | c :: t =>
      h <- (if c =? 48 then match t with [] => UB | x :: t' => if lower x =? 120 then hex_number s t' else Ok None end else Ok None) ;;
      match h with
      | Some q => Ok (Some q)
      | None => d <- decimal_number s l1 ;; match d with Some q => Ok (Some q) | None => special s l1 end
      end
  end.
(** core/utils/string.cpp:59-68 *)
Definition to_float (v : view) : outcome float :=
  let l := skipn (off v) (mem v) in
  r <- strtof l ;;
  match r with
  | None => Ok f_zero
  | Some (x, e) => match e with [] => UB | c :: _ => Ok (if c =? nul then x else f_zero) end
  end.
