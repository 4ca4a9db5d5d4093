(** Properties C48, C49, C70 to C72: structure/result.hpp and core/meta/unique_type_variant.hpp. *)
From Coq Require Import List Arith Bool ZArith.
From Verif Require Import Base ResultModel ResultSpec ResultProofs.
Import ListNotations.

(** Throughout: any types T, E, I (codes [t], [e], [i], equal or not), any payloads, debug and release builds. *)

(** C48. What every combinator does in each of the four states: acts on its own, passes the others on. match has no answer for an
    empty Result: it stops the program in debug builds and is undefined in release builds. *)
Theorem C48_states_partial : forall den dbg (t e i : nat),
  (forall t' (f : den t -> den t'), acts (@rmap den dbg t e i t' f)
     (fun x => Ok (success den (f x))) (fun x => Ok (intermediary den x)) (fun x => Ok (failed den x)) (Ok (no_value den))) /\
  (forall e' (f : den e -> den e'), acts (@map_error den dbg t e i e' f)
     (fun x => Ok (success den x)) (fun x => Ok (intermediary den x)) (fun x => Ok (failed den (f x))) (Ok (no_value den))) /\
  (forall i' (f : den i -> den i'), acts (@map_intermediary den dbg t e i i' f)
     (fun x => Ok (success den x)) (fun x => Ok (intermediary den (f x))) (fun x => Ok (failed den x)) (Ok (no_value den))) /\
  (forall t' (f : den t -> outcome (result den t' e i)), acts (and_then den dbg f)
     f (fun x => Ok (intermediary den x)) (fun x => Ok (failed den x)) (Ok (no_value den))) /\
  (forall e' (f : den e -> outcome (result den t e' i)), acts (or_else den dbg f)
     (fun x => Ok (success den x)) (fun x => Ok (intermediary den x)) f (Ok (no_value den))) /\
  (forall B (fs : den t -> B) (fe : den e -> B) (fi : den i -> B), acts (rmatch den dbg fs fe fi)
     (fun x => Ok (fs x)) (fun x => Ok (fi x)) (fun x => Ok (fe x)) (if dbg then Halt else UB)) /\
  (forall d, acts (@value_or den t e i dbg d) (fun x => Ok x) (fun _ => Ok d) (fun _ => Ok d) (Ok d)) /\
  (forall d, acts (@error_or den t e i dbg d) (fun _ => Ok d) (fun _ => Ok d) (fun x => Ok x) (Ok d)) /\
  (forall f, acts (@unwrap_or_else den t e i dbg f) (fun x => Ok x) (fun _ => Ok (f tt)) (fun _ => Ok (f tt)) (Ok (f tt))).
Proof.
  exact (fun den dbg t e i => conj (map_acts den dbg) (conj (map_error_acts den dbg) (conj (map_intermediary_acts den dbg)
    (conj (and_then_acts den dbg) (conj (or_else_acts den dbg) (conj (match_acts den dbg) (conj (value_or_acts den dbg)
    (conj (error_or_acts den dbg) (unwrap_or_else_acts den dbg))))))))).
Qed.
Print Assumptions C48_states_partial.
Example C48_states_case : let den := fun _ : nat => Z in
  rmap den true (t := 0) (e := 1) (i := 2) (t' := 0) (fun x => x + 1)%Z (success den 4%Z) = Ok (success den 5%Z) /\
  rmap den true (t := 0) (e := 1) (i := 2) (t' := 0) (fun x => x + 1)%Z (failed den 4%Z) = Ok (failed den 4%Z) /\
  map_error den false (t := 0) (e := 1) (i := 2) (e' := 1) (fun x => x + 1)%Z (failed den 4%Z) = Ok (failed den 5%Z) /\
  rmatch den true (t := 0) (e := 1) (i := 2) (fun x => x + 1)%Z (fun x => x * 2)%Z (fun x => x - 1)%Z (intermediary den 9%Z) = Ok 8%Z.
Proof. repeat split. Qed.

(** Every Result made by the constructors and combinators is in one of the four states *)
Theorem C48_closed : forall den dbg (t e i : nat) (r : result den t e i), lawful r ->
  (forall t' (f : den t -> den t'), ends_lawful (rmap den dbg f r)) /\
  (forall e' (f : den e -> den e'), ends_lawful (map_error den dbg f r)) /\
  (forall i' (f : den i -> den i'), ends_lawful (map_intermediary den dbg f r)) /\
  (forall t' (f : den t -> outcome (result den t' e i)), (forall x, ends_lawful (f x)) -> ends_lawful (and_then den dbg f r)) /\
  (forall e' (f : den e -> outcome (result den t e' i)), (forall x, ends_lawful (f x)) -> ends_lawful (or_else den dbg f r)) /\
  (forall fb (f : den i -> outcome (result den t e i)), (forall x, ends_lawful (f x)) -> ends_lawful (chain den fb dbg f r)) /\
  (forall fb, lawful (copy_of_variable den fb r)) /\ (forall cv x, lawful (@from_variable den cv t e i x)).
Proof. exact @stays_lawful. Qed.
Print Assumptions C48_closed.
Example C48_closed_case : let den := fun _ : nat => Z in lawful (success (t := 0) (e := 1) (i := 2) den 12%Z) /\
  ends_lawful (chain den (fun _ => None) true (fun x => Ok (failed (t := 0) (e := 1) (i := 2) den (- x)%Z)) (intermediary den 7%Z)) /\
  chain den (fun _ => None) true (fun x => Ok (failed (t := 0) (e := 1) (i := 2) den (- x)%Z)) (intermediary den 7%Z) = Ok (failed den (-7)%Z).
Proof. split; [constructor|]. split; [|reflexivity]. intros r E. injection E as <-. constructor. Qed.

Theorem C48_map_identity : forall den dbg t e i (r : result den t e i), lawful r ->
  rmap den dbg (fun x => x) r = Ok r /\ map_error den dbg (fun x => x) r = Ok r.
Proof. exact (fun den dbg t e i r L => conj (map_identity den dbg t e i r L) (map_error_identity den dbg t e i r L)). Qed.
Print Assumptions C48_map_identity.
Example C48_map_identity_case : let den := fun _ : nat => Z in lawful (failed (t := 0) (e := 1) (i := 2) den 12%Z) /\
  rmap den false (t' := 0) (fun x => x) (failed (t := 0) (e := 1) (i := 2) den 12%Z) = Ok (failed den 12%Z).
Proof. repeat split; repeat constructor. Qed.

Theorem C48_map_composition : forall den dbg t t' t'' e i (f : den t -> den t') (g : den t' -> den t'') (r : result den t e i), lawful r ->
  (y <- rmap den dbg f r ;; rmap den dbg g y) = rmap den dbg (fun x => g (f x)) r.
Proof. exact @map_composition. Qed.
Print Assumptions C48_map_composition.
Example C48_map_composition_case : let den := fun _ : nat => Z in
  (y <- rmap den true (t := 0) (e := 1) (i := 2) (t' := 0) (fun x => x + 1)%Z (success den 4%Z) ;; rmap den true (t' := 0) (fun x => x * 2)%Z y) = Ok (success den 10%Z).
Proof. reflexivity. Qed.

Theorem C48_map_error_composition : forall den dbg t e e' e'' i (f : den e -> den e') (g : den e' -> den e'') (r : result den t e i), lawful r ->
  (y <- map_error den dbg f r ;; map_error den dbg g y) = map_error den dbg (fun x => g (f x)) r.
Proof. exact @map_error_composition. Qed.
Print Assumptions C48_map_error_composition.
Example C48_map_error_composition_case : let den := fun _ : nat => Z in
  (y <- map_error den true (t := 0) (e := 1) (i := 2) (e' := 1) (fun x => x + 1)%Z (failed den 4%Z) ;; map_error den true (e' := 1) (fun x => x * 2)%Z y) = Ok (failed den 10%Z).
Proof. reflexivity. Qed.

Theorem C48_maps_commute : forall den dbg t t' e e' i (f : den t -> den t') (g : den e -> den e') (r : result den t e i), lawful r ->
  (y <- rmap den dbg f r ;; map_error den dbg g y) = (y <- map_error den dbg g r ;; rmap den dbg f y).
Proof. exact @map_commutes. Qed.
Print Assumptions C48_maps_commute.
Example C48_maps_commute_case : let den := fun _ : nat => Z in
  (y <- rmap den true (t := 0) (e := 1) (i := 2) (t' := 0) (fun x => x + 1)%Z (failed den 4%Z) ;; map_error den true (e' := 1) (fun x => x * 2)%Z y) = Ok (failed den 8%Z) /\
  (y <- map_error den true (t := 0) (e := 1) (i := 2) (e' := 1) (fun x => x * 2)%Z (failed den 4%Z) ;; rmap den true (t' := 0) (fun x => x + 1)%Z y) = Ok (failed den 8%Z).
Proof. split; reflexivity. Qed.

Theorem C48_and_then_associative : forall den dbg t t' t'' e i (f : den t -> outcome (result den t' e i))
    (g : den t' -> outcome (result den t'' e i)) (r : result den t e i), lawful r ->
  (y <- and_then den dbg f r ;; and_then den dbg g y) = and_then den dbg (fun x => y <- f x ;; and_then den dbg g y) r.
Proof. exact @and_then_assoc. Qed.
Print Assumptions C48_and_then_associative.
Example C48_and_then_associative_case : let den := fun _ : nat => Z in
  let halve (x : Z) : outcome (result den 0 1 2) := Ok (if Z.even x then success den (x / 2)%Z else failed den x) in
  (y <- @and_then den true 0 1 2 0 halve (success den 6%Z) ;; @and_then den true 0 1 2 0 halve y) = Ok (failed den 3%Z) /\
  @and_then den true 0 1 2 0 (fun x => y <- halve x ;; @and_then den true 0 1 2 0 halve y) (success den 6%Z) = Ok (failed den 3%Z).
Proof. split; reflexivity. Qed.

Theorem C48_and_then_units : forall den dbg t e i,
  (forall t' (f : den t -> outcome (result den t' e i)) x, and_then den dbg f (success den x) = f x) /\
  (forall r : result den t e i, lawful r -> and_then den dbg (fun x => Ok (success den x)) r = Ok r).
Proof. exact (fun den dbg t e i => conj (fun t' f => proj1 (and_then_acts den dbg t' f)) (and_then_right den dbg t e i)). Qed.
Print Assumptions C48_and_then_units.
Example C48_and_then_units_case : let den := fun _ : nat => Z in
  @and_then den true 0 1 2 0 (fun x => Ok (success den x)) (intermediary (t := 0) (e := 1) (i := 2) den 6%Z) = Ok (intermediary den 6%Z) /\
  @and_then den false 0 1 2 0 (fun x => Ok (failed den (x + 1)%Z)) (success (t := 0) (e := 1) (i := 2) den 6%Z) = Ok (failed den 7%Z).
Proof. split; reflexivity. Qed.

Theorem C48_map_is_and_then : forall den dbg t t' e i (f : den t -> den t') (r : result den t e i), lawful r ->
  rmap den dbg f r = and_then den dbg (fun x => Ok (success den (f x))) r.
Proof. exact @map_is_and_then. Qed.
Print Assumptions C48_map_is_and_then.
Example C48_map_is_and_then_case : let den := fun _ : nat => Z in
  @and_then den false 0 1 2 0 (fun x => Ok (success den (x * 3)%Z)) (success (t := 0) (e := 1) (i := 2) den 6%Z) = Ok (success (t := 0) den 18%Z).
Proof. reflexivity. Qed.

Theorem C48_or_else_associative : forall den dbg t e e' e'' i (f : den e -> outcome (result den t e' i))
    (g : den e' -> outcome (result den t e'' i)) (r : result den t e i), lawful r ->
  (y <- or_else den dbg f r ;; or_else den dbg g y) = or_else den dbg (fun x => y <- f x ;; or_else den dbg g y) r.
Proof. exact @or_else_assoc. Qed.
Print Assumptions C48_or_else_associative.
Example C48_or_else_associative_case : let den := fun _ : nat => Z in
  let retry (x : Z) : outcome (result den 0 1 2) := Ok (if (x <? 5)%Z then success den x else failed den (x - 4)%Z) in
  (y <- @or_else den true 0 1 2 1 retry (failed den 7%Z) ;; @or_else den true 0 1 2 1 retry y) = Ok (success den 3%Z) /\
  @or_else den true 0 1 2 1 (fun x => y <- retry x ;; @or_else den true 0 1 2 1 retry y) (failed den 7%Z) = Ok (success den 3%Z).
Proof. split; reflexivity. Qed.

(** match after the three maps is match with the composed functions *)
Theorem C48_match_fusion : forall den dbg t t' e e' i i' B (f : den t -> den t') (g : den e -> den e') (h : den i -> den i')
    (fs : den t' -> B) (fe : den e' -> B) (fi : den i' -> B) (r : result den t e i), lawful r ->
  (a <- rmap den dbg f r ;; b <- map_error den dbg g a ;; c <- map_intermediary den dbg h b ;; rmatch den dbg fs fe fi c) =
  rmatch den dbg (fun x => fs (f x)) (fun x => fe (g x)) (fun x => fi (h x)) r.
Proof. exact @match_after_map. Qed.
Print Assumptions C48_match_fusion.
Example C48_match_fusion_case : let den := fun _ : nat => Z in
  (a <- rmap den true (t' := 0) (fun x => x + 1)%Z (failed (t := 0) (e := 1) (i := 2) den 4%Z) ;; b <- map_error den true (e' := 1) (fun x => x * 2)%Z a ;;
   c <- map_intermediary den true (i' := 2) (fun x => x - 1)%Z b ;; rmatch den true (t := 0) (e := 1) (i := 2) (fun x => x) (fun x => - x)%Z (fun x => x) c) = Ok (-8)%Z.
Proof. reflexivity. Qed.

(** C48 is false for match on an empty Result, such as map gives for one *)
Theorem C48_match_empty_refuted : exists (den : nat -> Type) (t e i : nat) (r : result den t e i) (fs : den t -> Z) fe fi, lawful r /\
  rmap den false (fun x => x) r = Ok r /\ rmatch den true fs fe fi r = Halt /\ rmatch den false fs fe fi r = UB.
Proof.
  exists (fun _ => Z), 0, 1, 2, (no_value _), (fun x => x), (fun x => x), (fun x => x). repeat split. constructor.
Qed.
Print Assumptions C48_match_empty_refuted.

(** T = I = number, E = number of another type: halve even numbers, fail otherwise *)
Example C48_case : let den := fun _ : nat => Z in
  let halve (x : Z) : outcome (result den 0 1 0) := Ok (if Z.even x then success den (x / 2)%Z else failed den (- x)%Z) in
  let go := @and_then den true 0 1 0 0 halve in
  lawful (success (t := 0) (e := 1) (i := 0) den 12%Z) /\
  (y <- go (success den 12%Z) ;; go y) = Ok (success den 3%Z) /\
  (y <- go (success den 6%Z) ;; z <- go y ;; go z) = Ok (failed den (-3)%Z) /\
  value_or (t := 0) (e := 1) (i := 0) den false 7%Z (failed den 1%Z) = Ok 7%Z.
Proof. cbn. repeat split; constructor. Qed.

(** C49. Each listed type exactly once, no other, in the order of the last mentions, and a list without repetitions as it is *)
Theorem C49_unique : forall (A : Type) (eq_dec : forall x y : A, {x = y} + {x <> y}) (l : list A),
  (forall t, In t l -> count_occ eq_dec (unique A eq_dec l) t = 1) /\ (forall t, ~ In t l -> ~ In t (unique A eq_dec l)) /\
  (forall l1 x l2, l = l1 ++ x :: l2 -> ~ In x l2 -> exists l', unique A eq_dec l = l' ++ x :: unique A eq_dec l2) /\
  (NoDup l -> unique A eq_dec l = l).
Proof.
  intros A eq_dec l. split; [apply unique_count | split; [| split]].
  - intros t N H. apply N. apply (unique_in A eq_dec l t). exact H.
  - intros l1 x l2 -> N. apply unique_order. exact N.
  - apply unique_id.
Qed.
Print Assumptions C49_unique.
Example C49_case : unique nat Nat.eq_dec [3; 1; 3; 2; 1] = [3; 2; 1].
Proof. reflexivity. Qed.

(** C70. When E is T, or bool does not convert to E: chain passes a success or an error on and otherwise calls the function. Missing:
    other error types (C70_numeric_error_refuted) and an empty Result, where the function has nothing to work on. *)
Theorem C70_chain_partial : forall den dbg t e i fb (f : den i -> outcome (result den t e i)), e = t \/ fb e = None ->
  acts (chain den fb dbg f) (fun x => Ok (success den x)) f (fun x => Ok (failed den x)) (if dbg then Halt else UB).
Proof. exact @chain_acts. Qed.
Print Assumptions C70_chain_partial.
Example C70_chain_case : let den := fun _ : nat => Z in
  chain den (fun _ => None) true (fun x => Ok (success (t := 0) (e := 1) (i := 2) den (x * x)%Z)) (intermediary den 5%Z) = Ok (success den 25%Z) /\
  chain den (fun _ => None) true (fun x => Ok (success (t := 0) (e := 1) (i := 2) den (x * x)%Z)) (failed den 5%Z) = Ok (failed den 5%Z).
Proof. split; reflexivity. Qed.

(** For E other than T to which bool converts, chain turns every finished Result into an error holding that conversion *)
Theorem C70_numeric_error : forall den dbg t e i fb (f : den i -> outcome (result den t e i)) b, e <> t -> fb e = Some b ->
  acts (chain den fb dbg f) (fun _ => Ok (failed den (b true))) f (fun _ => Ok (failed den (b false))) (if dbg then Halt else UB).
Proof. exact @chain_lost. Qed.
Print Assumptions C70_numeric_error.
Example C70_numeric_error_case : let den := fun _ : nat => Z in let fb := fun _ : nat => Some (fun b : bool => if b then 1 else 0)%Z in
  chain (t := 0) (e := 1) (i := 2) den fb true (fun x : Z => Ok (@success den 0 1 2 x)) (success den 5%Z) = Ok (failed den 1%Z).
Proof. reflexivity. Qed.

(** Type 1 is int, the others are std::string; bool converts to int *)
Definition text_or_int (c : nat) : Type := match c with 1 => Z | _ => list nat end.
Definition int_from_bool (c : nat) : option (bool -> text_or_int c) :=
  match c with 1 => Some (fun b : bool => if b then 1%Z else 0%Z) | _ => None end.

(** Say T = std::string, E = int: the success is lost and the error 42 becomes 0 *)
Theorem C70_numeric_error_refuted : exists (den : nat -> Type) (fb : forall c, option (bool -> den c)) t e i
    (f : den i -> outcome (result den t e i)) (x : den t) (y z : den e), y <> z /\
  (forall dbg, chain den fb dbg f (success den x) = Ok (failed den z)) /\
  (forall dbg, exists w, chain den fb dbg f (failed den y) = Ok (failed den w) /\ w <> y).
Proof.
  exists text_or_int, int_from_bool, 0, 1, 0, (fun x => Ok (@success text_or_int 0 1 0 x)), [7], 42%Z, 1%Z.
  split; [discriminate | split; [reflexivity |]]. intros dbg. exists 0%Z. split; [reflexivity | discriminate].
Qed.
Print Assumptions C70_numeric_error_refuted.

Example C70_case : let den := fun _ : nat => Z in
  let step (x : Z) : outcome (result den 0 1 2) := Ok (if (x <? 10)%Z then intermediary den (3 * x)%Z else success den x) in
  let go := chain den (fun _ => None) true step in
  (a <- go (intermediary den 2%Z) ;; b <- go a ;; c <- go b ;; go c) = Ok (success den 18%Z).
Proof. reflexivity. Qed.

(** C71. Holds when E is T or the conversion in question does not exist. (Constants and temporaries: [success] and the Result itself.) *)
Theorem C71_made_and_copied_partial : forall den t e i,
  (forall cv (x : den t), e = t \/ cv t e = None -> @from_variable den cv t e i x = success den x) /\
  (forall fb (r : result den t e i), e = t \/ fb e = None -> copy_of_variable den fb r = r).
Proof. exact (fun den t e i => conj (made_success den t e i) (copy_kept den t e i)). Qed.
Print Assumptions C71_made_and_copied_partial.
Example C71_made_and_copied_case : copy_of_variable (fun _ => Z) (fun _ => None) (failed (t := 0) (e := 1) (i := 2) (fun _ => Z) 5%Z) = failed (fun _ => Z) 5%Z.
Proof. reflexivity. Qed.

(** Say T = int, E = float: int x = 5; Result<int, float> r = x; gives a failed Result, and a copy of a success is a failed Result *)
Theorem C71_variable_refuted : exists (den : nat -> Type) cv fb t e i (x : den t), 
  is_failed den (@from_variable den cv t e i x) = true /\ is_failed den (copy_of_variable den fb (success (e := e) (i := i) den x)) = true.
Proof. exists (fun _ => Z), (fun _ _ => Some (fun x => x)), (fun _ => Some (fun b : bool => if b then 1%Z else 0%Z)), 0, 1, 2, 5%Z. split; reflexivity. Qed.
Print Assumptions C71_variable_refuted.
Example C71_case : @from_variable (fun _ => Z) (fun _ _ => Some (fun x => x)) 0 0 2 5%Z = success (fun _ => Z) 5%Z.
Proof. reflexivity. Qed.

(** C72. In debug builds an accessor answers exactly in its own state, and with the payload *)
Theorem C72_debug : forall den t e i (r : result den t e i), lawful r ->
  (forall x, value den true r = Ok x <-> r = success den x) /\ (forall x, error_value den true r = Ok x <-> r = failed den x) /\
  (forall x, intermediary_value den true r = Ok x <-> r = intermediary den x).
Proof. exact @access_debug. Qed.
Print Assumptions C72_debug.
Example C72_debug_case : let den := fun _ : nat => Z in lawful (failed (t := 0) (e := 1) (i := 2) den 3%Z) /\
  error_value den true (failed (t := 0) (e := 1) (i := 2) den 3%Z) = Ok 3%Z /\ value den true (failed (t := 0) (e := 1) (i := 2) den 3%Z) = Halt.
Proof. repeat split; repeat constructor. Qed.

(** In release builds too for three different types and a Result that is not empty; the wrong access throws. Missing: equal types and
    the empty Result, see the refutations. *)
Theorem C72_release_partial : forall den t e i (r : result den t e i), t <> e -> t <> i -> e <> i -> lawful r -> r <> no_value den ->
  (forall x, value den false r = Ok x <-> r = success den x) /\ (forall x, error_value den false r = Ok x <-> r = failed den x) /\
  (forall x, intermediary_value den false r = Ok x <-> r = intermediary den x) /\
  ((exists x, r = success den x) \/ value den false r = Throw) /\ ((exists x, r = failed den x) \/ error_value den false r = Throw) /\
  ((exists x, r = intermediary den x) \/ intermediary_value den false r = Throw).
Proof. exact @access_release. Qed.
Print Assumptions C72_release_partial.
Example C72_release_case : let den := fun _ : nat => Z in success (t := 0) (e := 1) (i := 2) den 3%Z <> no_value den /\
  value den false (success (t := 0) (e := 1) (i := 2) den 3%Z) = Ok 3%Z /\ error_value den false (success (t := 0) (e := 1) (i := 2) den 3%Z) = Throw.
Proof. repeat split; discriminate. Qed.

(** What the accessors do in every state that is not theirs, whatever types are equal: in release builds the payload is taken for one of
    the type asked for, which throws when it has another type and is undefined without one. unwrap also takes intermediary values, when
    their type is that of the result. *)
Theorem C72_wrong_state : forall den t e i,
  (forall x, seen_as x (value den false (@intermediary den t e i x)) /\ seen_as x (error_value den false (@intermediary den t e i x))) /\
  (forall x, seen_as x (value den false (@failed den t e i x)) /\ seen_as x (intermediary_value den false (@failed den t e i x))) /\
  (forall x, seen_as x (error_value den false (@success den t e i x)) /\ seen_as x (intermediary_value den false (@success den t e i x))) /\
  value den false (@no_value den t e i) = UB /\ error_value den false (@no_value den t e i) = UB /\ intermediary_value den false (@no_value den t e i) = UB /\
  forall b,
  (forall x, unwrap den b (@success den t e i x) = Ok x) /\
  (forall x, (forall E : i = t, unwrap den b (@intermediary den t e i x) = Ok (eq_rect i den x t E)) /\
             (i <> t -> unwrap den b (@intermediary den t e i x) = if b then Halt else Throw)) /\
  (forall x, unwrap den true (@failed den t e i x) = Halt /\ seen_as x (unwrap den false (@failed den t e i x))) /\
  unwrap den b (@no_value den t e i) = (if b then Halt else UB).
Proof. exact @access_wrong. Qed.
Print Assumptions C72_wrong_state.
Example C72_wrong_state_case : let den := fun _ : nat => Z in
  unwrap den true (intermediary (t := 0) (e := 1) (i := 2) den 3%Z) = Halt /\ unwrap den true (intermediary (t := 0) (e := 1) (i := 0) den 3%Z) = Ok 3%Z /\
  unwrap den false (failed (t := 0) (e := 0) (i := 2) den 4%Z) = Ok 4%Z /\ unwrap den false (failed (t := 0) (e := 1) (i := 2) den 4%Z) = Throw.
Proof. repeat split. Qed.

(** Result<int>: value() of a failed Result gives the error as if it were the value; unwrap gives an intermediary value in any build *)
Theorem C72_same_types_refuted : exists (den : nat -> Type) t (x : den t),
  value den false (failed (t := t) (e := t) (i := t) den x) = Ok x /\
  (forall dbg, unwrap den dbg (intermediary (t := t) (e := t) (i := t) den x) = Ok x).
Proof. exists (fun _ => Z), 0, 5%Z. split; [reflexivity |]. intros []; reflexivity. Qed.
Print Assumptions C72_same_types_refuted.

Theorem C72_empty_refuted : exists (den : nat -> Type) t e i, t <> e /\ t <> i /\ e <> i /\ value den false (@no_value den t e i) = UB.
Proof. exists (fun _ => Z), 0, 1, 2. repeat split; discriminate. Qed.
Print Assumptions C72_empty_refuted.

Example C72_case : value (fun _ => Z) false (failed (t := 0) (e := 1) (i := 2) (fun _ => Z) 5%Z) = Throw /\
  value (fun _ => Z) true (failed (t := 0) (e := 0) (i := 0) (fun _ => Z) 5%Z) = Halt.
Proof. split; reflexivity. Qed.
