(** Model of the string utilities (core/utils/string.cpp, core/utils/concatenate.hpp) and of StaticString
    (structure/static_string.cpp). *)
From Coq Require Import List Arith ZArith Bool.
From Verif Require Import Base FloatModel.
Import ListNotations.
Open Scope nat_scope.

(** Characters are numbers; '\0' is 0. *)
Notation char := nat (only parsing).
Definition nul : char := 0.
(** The default delimiters " \f\n\r\t\v" (core/utils/string.hpp:8, structure/static_string.hpp:41) *)
Definition blanks : list char := [32; 12; 10; 13; 9; 11].
(** delimiters.find(c) != npos *)
Definition delim (ds : list char) (c : char) : bool := existsb (Nat.eqb c) ds.

(** A std::string_view: a piece of an allocated block. [len] is a size_t and can wrap around. *)
Record view := mkView { mem : list char; off : nat; len : Z }.
Definition text (v : view) : list char := firstn (Z.to_nat (len v)) (skipn (off v) (mem v)).
Definition size64 (x : Z) : Z := wrapW 64 x.

(** The loop "while (delimiters.find( *it) != npos) ++it" over the characters the iterator passes. Dereferencing the end of the view
    is undefined in the standard; the model reads on in the block, as pointers do, and gives [UB] at its end. *)
Fixpoint skip (ds : list char) (l : list char) : outcome nat :=
  match l with
  | [] => UB
  | c :: t => if delim ds c then n <- skip ds t ;; Ok (S n) else Ok 0
  end.
(** core/utils/string.cpp:10-16 *)
Definition lstrip (ds : list char) (v : view) : outcome view :=
  n <- skip ds (skipn (off v) (mem v)) ;; Ok (mkView (mem v) (off v + n) (size64 (len v - Z.of_nat n))).
(** core/utils/string.cpp:19-25 *)
Definition rstrip (ds : list char) (v : view) : outcome view :=
  n <- skip ds (rev (firstn (off v + Z.to_nat (len v)) (mem v))) ;; Ok (mkView (mem v) (off v + n) (size64 (len v - Z.of_nat n))).

(** char_traits::compare and then the sizes, as std::basic_string_view::compare does *)
Fixpoint compare3 (a b : list char) : Z :=
  match a, b with
  | [], [] => 0%Z
  | [], _ => (-1)%Z
  | _, [] => 1%Z
  | x :: a', y :: b' => if x <? y then (-1)%Z else if y <? x then 1%Z else compare3 a' b'
  end.
(** s.compare(pos, n, needle): std::out_of_range when pos is beyond the end *)
Definition compare_at (s : list char) (pos n : Z) (needle : list char) : outcome Z :=
  if (Z.of_nat (length s) <? pos)%Z then Throw
  else let k := Z.to_nat pos in Ok (compare3 (firstn (Z.to_nat (Z.min n (Z.of_nat (length s)))) (skipn k s)) needle).
(** core/utils/string.cpp:28-30, structure/static_string.cpp:35-37 *)
Definition starts_with (s needle : list char) : outcome bool :=
  r <- compare_at s 0 (Z.of_nat (length needle)) needle ;; Ok (r =? 0)%Z.
(** core/utils/string.cpp:33-35, structure/static_string.cpp:38-40 *)
Definition ends_with (s needle : list char) : outcome bool :=
  r <- compare_at s (size64 (Z.of_nat (length s) - Z.of_nat (length needle))) (Z.of_nat (length s)) needle ;; Ok (r =? 0)%Z.

(** core/utils/string.cpp:39-46; None is npos *)
Fixpoint find_from (ds : list char) (i : nat) (s : list char) : option nat :=
  match s with
  | [] => None
  | c :: t => if delim ds c then Some i else find_from ds (S i) t
  end.
Definition find_first_of (s ds : list char) : option nat := find_from ds 0 s.

(** std::strtof on a text that starts with decimal digits: value and number of characters used, 0 when there is no digit. Signs,
    leading blanks, fractions, exponents and the hexadecimal, infinity and NaN forms are not modelled. It reads until the first
    character that is not a digit; beyond the block that is undefined. *)
Definition is_digit (c : char) : bool := (48 <=? c) && (c <=? 57).
Definition digit (c : char) : Z := Z.of_nat c - 48.
Fixpoint digits (acc : Z) (l : list char) : outcome (Z * nat) :=
  match l with
  | [] => UB
  | c :: t => if is_digit c then '(v, n) <- digits (10 * acc + digit c)%Z t ;; Ok (v, S n) else Ok (acc, 0)
  end.
(** core/utils/string.cpp:59-68 *)
Definition to_float (v : view) : outcome float :=
  let l := skipn (off v) (mem v) in
  '(x, n) <- digits 0 l ;;
  if n =? 0 then Ok f_zero else c <- rd l n ;; Ok (if c =? nul then f_ofZ x else f_zero).

(** ** concat (core/utils/concatenate.hpp). An operand is a character array, terminator included. *)
(** concatenate.hpp:41-43 *)
Definition strlen (a : list char) : nat := match length a with 0 => 0 | S n => n end.
(** concatenate.hpp:50-58: lhs[0..], rhs[0..], '\0' *)
Definition concat2 (a b : list char) : list char := firstn (strlen a) a ++ firstn (strlen b) b ++ [nul].
(** concatenate.hpp:60-69, for any number of operands *)
Fixpoint concat (l : list (list char)) : list char :=
  match l with
  | [] => concat2 [nul] [nul]
  | [a] => concat2 a [nul]
  | a :: ((b :: r) as t) => match r with [] => concat2 a b | _ => concat2 a (concat t) end
  end.

(** ** StaticString: a std::string whose capacity never changes. [smem] is its allocation, capacity + 1 characters. *)
Record ss := mkSs { smem : list char; ssize : nat }.
Definition capacity (s : ss) : nat := length (smem s) - 1.
(** structure/static_string.hpp:36 *)
Definition sview (s : ss) : list char := firstn (ssize s) (smem s).
(** structure/static_string.cpp:5: [cap] is the capacity the library chose for buffer_length *)
Definition smake (cap : nat) : ss := mkSs (repeat nul (S cap)) cap.
(** std::string::resize within the capacity: new characters are '\0', and the terminator is set *)
Definition resize (n : nat) (s : ss) : ss :=
  mkSs (upd (if ssize s <? n then firstn (ssize s) (smem s) ++ repeat nul (n - ssize s) ++ skipn n (smem s) else smem s) n nul) n.
(** structure/static_string.cpp:6-9 *)
Definition set_size (dbg : bool) (n : nat) (s : ss) : outcome ss :=
  sassert dbg (n <=? capacity s) ;;; Ok (resize (Nat.min n (capacity s)) s).
(** structure/static_string.cpp:10-17; the pointer is the start of [smem] *)
Definition sdata (dbg : bool) (n : nat) (s : ss) : outcome ss := if 0 <? n then set_size dbg n s else Ok s.
(** A caller that announces and writes the characters of [l] through data() *)
Definition put (dbg : bool) (l : list char) (s : ss) : outcome ss :=
  s' <- sdata dbg (length l) s ;;
  if length l <=? length (smem s') then Ok (mkSs (l ++ skipn (length l) (smem s')) (ssize s')) else UB.
(** structure/static_string.cpp:18-26. The iterator may be dereferenced at the terminator. size() - len wraps around when the loop
    passed the end; the memmove of that many characters is undefined. *)
Definition slstrip (dbg : bool) (ds : list char) (s : ss) : outcome ss :=
  n <- skip ds (smem s) ;;
  if ssize s <? n then UB else
  m <- memmove (smem s) 0 n (ssize s - n) ;; set_size dbg (ssize s - n) (mkSs m (ssize s)).
(** structure/static_string.cpp:27-34: before the first character there is nothing to read *)
Definition srstrip (dbg : bool) (ds : list char) (s : ss) : outcome ss :=
  n <- skip ds (rev (sview s)) ;; set_size dbg (ssize s - n) s.

Inductive sop := SSize (n : nat) | SPut (l : list char) | SL (ds : list char) | SR (ds : list char).
Definition sstep (dbg : bool) (s : ss) (o : sop) : outcome ss :=
  match o with
  | SSize n => set_size dbg n s
  | SPut l => put dbg l s
  | SL ds => slstrip dbg ds s
  | SR ds => srstrip dbg ds s
  end.
Fixpoint srun (dbg : bool) (s : ss) (os : list sop) : outcome ss :=
  match os with [] => Ok s | o :: r => s' <- sstep dbg s o ;; srun dbg s' r end.
