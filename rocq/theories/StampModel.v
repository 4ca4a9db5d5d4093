(** Model of DateTime::strf_DateTime (structure/time/datetime.cpp:169-172; datetime.hpp:37 for the default format), on top of CalModel.

    strftime belongs to the C library; what is assumed of it is written out here, as POSIX describes it in the C locale, for the
    conversions %a %b %h %d %H %M %S %T %Y %m %j %n %t %%. *)
From Coq Require Import ZArith Bool List.
From Verif Require Import Base ScanModel CalModel.
Import ListNotations.
Open Scope Z_scope.

(** Assumed: the digits of a number. [f] bounds their number; an int has at most ten. *)
Fixpoint udec (f : nat) (n : Z) : list Z :=
  match f with
  | O => [48 + n]
  | S f' => if n <? 10 then [48 + n] else udec f' (n / 10) ++ [48 + n mod 10]
  end.
Definition dec (n : Z) : list Z := if n <? 0 then 45 :: udec 10 (- n) else udec 10 n.
Definition pad2 (n : Z) : list Z := [48 + n / 10; 48 + n mod 10].
Definition pad3 (n : Z) : list Z := 48 + n / 100 :: pad2 (n mod 100).
Definition three (names : list Z) (i : Z) : list Z := firstn 3 (skipn (3 * Z.to_nat i) names).
(** "SunMonTueWedThuFriSat" *)
Definition day_names : list Z :=
  [83; 117; 110; 77; 111; 110; 84; 117; 101; 87; 101; 100; 84; 104; 117; 70; 114; 105; 83; 97; 116].
(** Assumed: what a conversion writes. None: a conversion not modelled here *)
Definition conversion (x : btm) (c : Z) : option (list Z) :=
  match c with
  | 97 (* a *) => Some (three day_names (b_wday x))
  | 98 | 104 (* b h *) => Some (three month_names (b_mon x))
  | 100 (* d *) => Some (pad2 (b_mday x))
  | 72 (* H *) => Some (pad2 (b_hour x))
  | 77 (* M *) => Some (pad2 (b_min x))
  | 83 (* S *) => Some (pad2 (b_sec x))
  | 84 (* T *) => Some (pad2 (b_hour x) ++ 58 :: pad2 (b_min x) ++ 58 :: pad2 (b_sec x))
  | 89 (* Y *) => Some (dec (b_year x + 1900))
  | 109 (* m *) => Some (pad2 (b_mon x + 1))
  | 106 (* j *) => Some (pad3 (b_yday x + 1))
  | 110 (* n *) => Some [10]
  | 116 (* t *) => Some [9]
  | 37 (* % *) => Some [37]
  | _ => None
  end.
Fixpoint expand (x : btm) (fmt : list Z) : option (list Z) :=
  match fmt with
  | [] => Some []
  | 37 :: [] => None
  | 37 :: c :: t => match conversion x c, expand x t with Some a, Some b => Some (a ++ b) | _, _ => None end
  | c :: t => match expand x t with Some b => Some (c :: b) | None => None end
  end.
(** Assumed: strftime; the text and a '\0' if they fit in [size], else 0, with the contents of the buffer unspecified: [junk] is what it
    leaves there. Writing beyond the buffer is undefined. Fuel: the format has conversions not modelled here. *)
Definition strftime (junk : list Z) (buffer : list Z) (size : nat) (fmt : list Z) (x : btm) : outcome (nat * list Z) :=
  match expand x fmt with
  | None => Fuel
  | Some text =>
      let fits := (length text <? size)%nat in
      let out := if fits then text ++ [0] else firstn size junk in
      if (length out <=? length buffer)%nat then Ok (if fits then length text else O, out ++ skipn (length out) buffer) else UB
  end.
(** datetime.hpp:37: "%a %h %d %T %Y" *)
Definition default_format : list Z := [37; 97; 32; 37; 104; 32; 37; 100; 32; 37; 84; 32; 37; 89].
(** datetime.cpp:169-172; reading fields in which nothing was stored is undefined *)
Definition strf_DateTime (junk : list Z) (t : datetime) (buffer : list Z) (size : nat) (fmt : list Z) : outcome (nat * list Z) :=
  match d_tm t with Some x => strftime junk buffer size fmt x | None => UB end.
