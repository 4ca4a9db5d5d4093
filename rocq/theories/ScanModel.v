(** Model of DateTime(const char* date, const char* time) (structure/time/datetime.cpp:126-142), with the parts of sscanf (formats
    "%4s %2d %4d" and "%i:%i:%i") and strstr it uses. mktime is in CalModel; the result is the struct tm it is given. *)
From Coq Require Import List Arith ZArith Bool.
From Verif Require Import Base DateModel.
Import ListNotations.
Open Scope Z_scope.

(** Characters are numbers. A C string is the list of the characters before its '\0'. isspace in the C locale. *)
Definition isspace (c : Z) : bool := (c =? 32) || ((9 <=? c) && (c <=? 13)).
Fixpoint skip_ws (l : list Z) : list Z :=
  match l with c :: t => if isspace c then skip_ws t else l | [] => [] end.
(** The value of a character as a digit of base [b] (8, 10 or 16) *)
Definition digit (b c : Z) : option Z :=
  let v := if (48 <=? c) && (c <=? 57) then c - 48
           else if (97 <=? c) && (c <=? 102) then c - 87
           else if (65 <=? c) && (c <=? 70) then c - 55 else 99 in
  if v <? b then Some v else None.
(** At most [w] digits: the number (continuing [acc]) and what follows it *)
Fixpoint digits (b : Z) (w : nat) (acc : Z) (l : list Z) : Z * list Z :=
  match w, l with
  | S w', c :: t => match digit b c with Some v => digits b w' (acc * b + v) t | None => (acc, l) end
  | _, _ => (acc, l)
  end.
(** An optional sign: (negative?, width left, what follows) *)
Definition sign (w : nat) (l : list Z) : bool * nat * list Z :=
  match l with
  | 45 :: t => (true, pred w, t)
  | 43 :: t => (false, pred w, t)
  | _ => (false, w, l)
  end.
(** %<w>d: None is a matching or input failure, which ends the call of sscanf *)
Definition scan_d (w : nat) (l : list Z) : option (Z * list Z) :=
  let '(neg, w1, l1) := sign w (skip_ws l) in
  match w1, l1 with
  | S _, c :: _ =>
      match digit 10 c with
      | Some _ => let (v, r) := digits 10 w1 0 l1 in Some (if neg then - v else v, r)
      | None => None
      end
  | _, _ => None
  end.
(** %i: the base is 16 after "0x", 8 after "0" and 10 otherwise, as for strtol with base 0. A number that does not fit an int is
    undefined. *)
Definition scan_i (l : list Z) : outcome (option (Z * list Z)) :=
  let '(neg, _, l1) := sign 1 (skip_ws l) in
  let some b l2 :=
    let (v, r) := digits b (length l2) 0 l2 in
    let x := if neg then - v else v in
    if (- 2 ^ 31 <=? x) && (x <? 2 ^ 31) then Ok (Some (x, r)) else UB in
  match l1 with
  | 48 :: x :: t =>
      if (x =? 120) || (x =? 88)
      then match t with
           | c :: _ => match digit 16 c with Some _ => some 16 t | None => Ok None end
           | [] => Ok None
           end
      else some 8 l1
  | c :: _ => match digit 10 c with Some _ => some 10 l1 | None => Ok None end
  | [] => Ok None
  end.
(** %4s into a buffer that holds [buff]: at most 4 characters that are not blanks *)
Fixpoint word (w : nat) (l : list Z) : list Z * list Z :=
  match w, l with
  | S w', c :: t => if isspace c then ([], l) else let (a, r) := word w' t in (c :: a, r)
  | _, _ => ([], l)
  end.
(** A variable is None while nothing was stored in it: its value is indeterminate. sscanf(date, "%4s %2d %4d", ...): the buffer, day
    and year *)
Definition sscanf_date (buff date : list Z) : list Z * option Z * option Z :=
  match word 4 (skip_ws date) with
  | ([], _) => (buff, None, None)
  | (m, r) =>
      match scan_d 2 (skip_ws r) with
      | None => (m, None, None)
      | Some (d, r1) => match scan_d 4 (skip_ws r1) with None => (m, Some d, None) | Some (y, _) => (m, Some d, Some y) end
      end
  end.
(** sscanf(time, "%i:%i:%i", ...): hour, minute and second *)
Definition sscanf_time (time : list Z) : outcome (option Z * option Z * option Z) :=
  h <- scan_i time ;;
  match h with
  | None => Ok (None, None, None)
  | Some (h, 58 :: r) =>
      m <- scan_i r ;;
      match m with
      | None => Ok (Some h, None, None)
      | Some (m, 58 :: r1) =>
          s <- scan_i r1 ;; Ok (Some h, Some m, match s with Some (s, _) => Some s | None => None end)
      | Some (m, _) => Ok (Some h, Some m, None)
      end
  | Some (h, _) => Ok (Some h, None, None)
  end.

Fixpoint prefix (n s : list Z) : bool :=
  match n, s with
  | [], _ => true
  | a :: n', b :: s' => (a =? b) && prefix n' s'
  | _, [] => false
  end.
(** strstr: the offset of the first place where [n] is found; None is a null pointer *)
Fixpoint strstr (s n : list Z) : option Z :=
  if prefix n s then Some 0
  else match s with [] => None | _ :: t => match strstr t n with Some i => Some (i + 1) | None => None end end.
(** datetime.cpp:127: "JanFebMarAprMayJunJulAugSepOctNovDec" *)
Definition month_names : list Z :=
  [74; 97; 110; 70; 101; 98; 77; 97; 114; 65; 112; 114; 77; 97; 121; 74; 117; 110; 74; 117; 108; 65; 117; 103; 83; 101; 112; 79; 99; 116;
   78; 111; 118; 68; 101; 99].
(** datetime.cpp:128: the buffer is static, its first contents are "0000" *)
Definition month_buff0 : list Z := [48; 48; 48; 48].

Record tm := mkTm { tm_year : Z; tm_mon : Z; tm_mday : Z; tm_hour : Z; tm_min : Z; tm_sec : Z; tm_yday : Z; tm_isdst : Z }.
(** The value of a variable; reading one that nothing was stored in is undefined *)
Definition var (x : option Z) : outcome Z := match x with Some v => Ok v | None => UB end.
(** datetime.cpp:126-142: the static buffer afterwards and the struct tm given to mktime. [dst] is what the memory of the object held
    in the place of tm_isdst, which is not written (nor is tm_wday, which mktime does not read). Overflow of int in the sums is not
    modelled: the numbers scanned are within four digits. *)
Definition date_of_text (dst : Z) (buff date time : list Z) : outcome (list Z * tm) :=
  let '(b, day, year) := sscanf_date buff date in
  month <- (match strstr month_names b with Some i => Ok (Z.quot i 3 + 1) | None => UB end) ;;
  year <- var year ;; day <- var day ;;
  '(hour, min, sec) <- sscanf_time time ;;
  hour <- var hour ;; min <- var min ;; sec <- var sec ;;
  yday <- calcYearDay year month day ;;
  Ok (b, mkTm (year - 1900) (month - 1) day hour min sec yday dst).
