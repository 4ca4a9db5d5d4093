(** Property C108: dates and times as the preprocessor writes them, __DATE__ as "Mmm dd yyyy" (days below ten after a blank) and __TIME__
    as "hh:mm:ss". *)
From Coq Require Import List ZArith String Ascii.
Import ListNotations.
Open Scope Z_scope.

Definition chars (s : string) : list Z := map (fun c => Z.of_nat (nat_of_ascii c)) (list_ascii_of_string s).
Definition month_text (m : Z) : list Z :=
  chars (nth (Z.to_nat (m - 1)) ["Jan"; "Feb"; "Mar"; "Apr"; "May"; "Jun"; "Jul"; "Aug"; "Sep"; "Oct"; "Nov"; "Dec"]%string ""%string).
Definition figure (n : Z) : Z := 48 + n mod 10.
Definition two (n : Z) : list Z := [figure (n / 10); figure n].
Definition four (n : Z) : list Z := two (n / 100) ++ two n.
Definition date_text (y m d : Z) : list Z :=
  month_text m ++ [32] ++ (if d <? 10 then [32; figure d] else two d) ++ [32] ++ four y.
Definition time_text (h m s : Z) : list Z := two h ++ [58] ++ two m ++ [58] ++ two s.
Definition time_of_day (h m s : Z) : Prop := 0 <= h < 24 /\ 0 <= m < 60 /\ 0 <= s <= 60.
