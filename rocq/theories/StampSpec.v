(** Property C124: the text of a moment. *)
From Coq Require Import List ZArith Bool String Ascii.
From Verif Require Import Base DateSpec ScanSpec CalSpec.
Import ListNotations.
Open Scope Z_scope.

Definition weekday_text (w : Z) : list Z :=
  chars (nth (Z.to_nat w) ["Sun"; "Mon"; "Tue"; "Wed"; "Thu"; "Fri"; "Sat"]%string ""%string).
(** A number written with decimal digits, without leading zeros *)
Definition value (l : list Z) : Z := fold_left (fun a c => 10 * a + (c - 48)) l 0.
Definition numeral (l : list Z) (n : Z) : Prop :=
  exists ds, l = (if n <? 0 then 45 :: ds else ds) /\ Forall (fun c => 48 <= c <= 57) ds /\ value ds = Z.abs n /\ ds <> [] /\ (hd 0 ds = 48 -> ds = [48]).
(** "Wed Feb 29 23:59:01 2024" *)
Definition stamp (w m d h mi s : Z) (year : list Z) : list Z :=
  weekday_text w ++ [32] ++ month_text m ++ [32] ++ two d ++ [32] ++ time_text h mi s ++ [32] ++ year.
(** "2024-02-29 23:59:01" *)
Definition iso (y m d h mi s : Z) : list Z := four y ++ [45] ++ two m ++ [45] ++ two d ++ [32] ++ time_text h mi s.
(** The order of strcmp *)
Fixpoint before (a b : list Z) : Prop :=
  match a, b with
  | x :: a', y :: b' => x < y \/ (x = y /\ before a' b')
  | [], _ :: _ => True
  | _, [] => False
  end.
(** The date and the time within such a text, as __DATE__ and __TIME__ have them: "Feb 29 2024", "23:59:01" *)
Definition date_part (l : list Z) : list Z := firstn 7 (skipn 4 l) ++ skipn 20 l.
Definition time_part (l : list Z) : list Z := firstn 8 (skipn 11 l).
(** The characters before the first '\0' of a buffer *)
Fixpoint c_string (l : list Z) : list Z := match l with [] => [] | c :: t => if c =? 0 then [] else c :: c_string t end.
