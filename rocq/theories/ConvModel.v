(** Model of the conversions of values to and from text, /repo/include/pluto/string.hpp: str (227-243), str_to (295-307).
    Characters are bytes; wstr (245-261) and wstr_to (309-321) are the same code on wide characters.  The string
    streams are freshly constructed: decimal base, skipws, no boolalpha, and the global locale is the classic one.
    Floating-point values, pointers and user-defined stream operators are not modelled.
    The (pointer, size) overloads (227-230, 303-307) build the string and are the same functions. *)
From Coq Require Import Ascii String List Bool Arith ZArith.
From Verif Require Import Base LogTextModel.
Import ListNotations.
Open Scope list_scope.

(** std::isspace in the classic locale *)
Definition is_space (c : ascii) : bool :=
  let n := N_of_ascii c in ((9 <=? n) && (n <=? 13) || (n =? 32))%N.
(** the digit that a character stands for *)
Definition digit_val (c : ascii) : option Z :=
  let n := Z.of_N (N_of_ascii c) in if ((48 <=? n) && (n <=? 57))%Z then Some (n - 48)%Z else None.

(** std::istream::sentry (noskipws = false): skips white space; at the end of the text it fails *)
Fixpoint skip_ws (s : text) : text :=
  match s with
  | c :: s' => if is_space c then skip_ws s' else s
  | [] => []
  end.
(** std::num_get with base 10: the digits are accumulated up to the first other character *)
Fixpoint get_digits (s : text) (n : Z) : Z :=
  match s with
  | c :: s' => match digit_val c with Some d => get_digits s' (10 * n + d)%Z | None => n end
  | [] => n
  end.
Definition get_sign (s : text) : bool * text :=
  match s with
  | "-"%char :: s' => (true, s')
  | "+"%char :: s' => (false, s')
  | _ => (false, s)
  end.
(** the values of an integer type of [w] bits *)
Definition lo (signed : bool) (w : Z) : Z := if signed then (- 2 ^ (w - 1))%Z else 0%Z.
Definition hi (signed : bool) (w : Z) : Z := if signed then (2 ^ (w - 1) - 1)%Z else (2 ^ w - 1)%Z.
(** Stage 3 of num_get: a value out of range becomes the nearest one; without digits the value is 0.  Both set
    failbit, which str_to does not look at.  A negative number read into an unsigned type wraps around
    (libstdc++; the standard refers to strtoull). *)
Definition convert (signed : bool) (w : Z) (neg : bool) (n : Z) : Z :=
  if signed then Z.max (lo signed w) (Z.min (hi signed w) (if neg then - n else n))
  else if (hi signed w <? n)%Z then hi signed w else if neg then (- n) mod 2 ^ w else n.

(** string.hpp 295-301 for an integer type other than the character types: [Value value;] is not initialised and
    operator>> leaves it so when the sentry fails; returning it is undefined *)
Definition str_to_int (signed : bool) (w : Z) (s : text) : outcome Z :=
  match skip_ws s with
  | [] => Ub
  | t => let (neg, t) := get_sign t in Ret (convert signed w neg (get_digits t 0))
  end.
(** 295-301 for bool: num_get reads a long; 0 is false and every other number true *)
Definition str_to_bool (s : text) : outcome bool :=
  match str_to_int true 64 s with Ret n => Ret (negb (n =? 0)%Z) | Ub => Ub | Throw => Throw | OutOfFuel => OutOfFuel end.
(** 295-301 for char, signed char and unsigned char: one character that is no white space *)
Definition str_to_char (s : text) : outcome ascii :=
  match skip_ws s with c :: _ => Ret c | [] => Ub end.
(** 295-301 for std::string: default-constructed, then the characters up to the next white space *)
Fixpoint get_word (s : text) : text :=
  match s with
  | c :: s' => if is_space c then [] else c :: get_word s'
  | [] => []
  end.
Definition str_to_string (s : text) : outcome text := Ret (get_word (skip_ws s)).

(** string.hpp 237-243: operator<< of an integer, a bool and a character *)
Definition str_int (v : Z) : text := dec v.
Definition str_bool (b : bool) : text := dec (if b then 1 else 0).
Definition str_char (c : ascii) : text := [c].
(** 232-235 *)
Definition str_string (s : text) : text := s.
