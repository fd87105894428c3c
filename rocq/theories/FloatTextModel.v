(** Model of str and str_to (/repo/include/pluto/string.hpp 237-243, 295-301) for floating-point types.  Values are as
    in FloatModel.v.  The string streams are freshly constructed (precision 6, no floatfield) and the locale is the
    classic one, so operator<< is printf's %g; glibc's printf and strtod are exact (nearest, ties to even).
    operator>> is that of libstdc++, which collects a sign, digits with one point and an exponent and gives them to strtod. *)
From Coq Require Import Ascii String List Bool Arith ZArith Floats.SpecFloat.
From Verif Require Import Base LogTextModel ConvModel.
Import ListNotations.
Open Scope list_scope.
Local Open Scope Z_scope.

(** a / b rounded to the nearest integer, ties to even *)
Definition div_even (a b : Z) : Z :=
  let q := a / b in let r := a mod b in
  if 2 * r <? b then q else if b <? 2 * r then q + 1 else if Z.even q then q else q + 1.
(** the exponent k with 10^k <= a / b < 10^(k+1) *)
Definition exponent10 (a b : Z) : Z :=
  if b <=? a then Z.of_nat (length (dec (a / b))) - 1 else - Z.of_nat (length (dec ((b - 1) / a))).
(** %e with 5 places: a / b is rounded to six digits *)
Definition six_digits (a b : Z) : Z * Z :=
  let k := exponent10 a b in
  let q := div_even (a * 10 ^ Z.max 0 (5 - k)) (b * 10 ^ Z.max 0 (k - 5)) in
  if q =? 1000000 then (100000, k + 1) else (q, k).
(** %g drops zeros at the end of the fraction, and the point if no fraction is left *)
Fixpoint drop_zeros (t : text) : text :=
  match t with "0"%char :: t' => drop_zeros t' | _ => t end.
Definition with_point (i f : text) : text :=
  match rev (drop_zeros (rev f)) with [] => i | f => i ++ "."%char :: f end.
Definition two_digits (n : Z) : text := if n <? 10 then "0"%char :: dec n else dec n.
Definition fmt_g (digits x : Z) : text :=
  let ds := dec digits in
  if (x <? -4) || (6 <=? x) then
    with_point (firstn 1 ds) (skipn 1 ds) ++ "e"%char :: (if x <? 0 then "-"%char else "+"%char) :: two_digits (Z.abs x)
  else if x <? 0 then with_point ["0"%char] (repeat "0"%char (Z.to_nat (- x - 1)) ++ ds)
  else with_point (firstn (Z.to_nat (x + 1)) ds) (skipn (Z.to_nat (x + 1)) ds).
Definition minus (s : bool) (t : text) : text := if s then "-"%char :: t else t.

Section Format.
Variables prec emax : Z.
Notation emin := (emin prec emax).

(** str, 237-243.  The sign of NaN is not modelled. *)
Definition str_float (x : spec_float) : text :=
  match x with
  | S754_zero s => minus s (chars "0")
  | S754_infinity s => minus s (chars "inf")
  | S754_nan => chars "nan"
  | S754_finite s m e => let (d, x) := six_digits (Zpos m * 2 ^ (e - emin)) (2 ^ (- emin)) in minus s (fmt_g d x)
  end.

(** strtod: m * 10^e to the nearest number.  operator>> gives the largest finite number instead of an infinity. *)
Definition round_ratio (a b : Z) : Z :=
  let s := 2 ^ Z.max 0 (Z.log2 (a / b) + 1 - prec) in s * div_even a (b * s).
Definition largest (s : bool) : spec_float := S754_finite s (Z.to_pos (2 ^ prec - 1)) (emax - prec).
Definition to_float (s : bool) (m e : Z) : spec_float :=
  match round_ratio (m * 10 ^ Z.max 0 e * 2 ^ (- emin)) (10 ^ Z.max 0 (- e)) with
  | Zpos r => match binary_round prec emax s r emin with S754_infinity s => largest s | x => x end
  | _ => S754_zero s
  end.
(** the characters that operator>> collects: digits, a point and digits, an exponent.  Without digits, or with an
    exponent without digits, the value is 0. *)
Fixpoint digits_of (t : text) : text * text :=
  match t with
  | c :: t' => match digit_val c with Some _ => let (d, r) := digits_of t' in (c :: d, r) | None => ([], t) end
  | [] => ([], [])
  end.
Definition is_e (c : ascii) : bool := Ascii.eqb c "e" || Ascii.eqb c "E".
Definition get_exponent (t : text) : option Z :=
  match t with
  | c :: t' =>
      if is_e c then
        let (neg, t') := get_sign t' in
        match digits_of t' with ([], _) => None | (d, _) => Some (if neg then - get_digits d 0 else get_digits d 0) end
      else Some 0
  | [] => Some 0
  end.
Definition get_float (t : text) : spec_float :=
  let (neg, t) := get_sign t in
  let (i, t) := digits_of t in
  let (f, t) := match t with "."%char :: t' => digits_of t' | _ => ([], t) end in
  match i ++ f, get_exponent t with
  | [], _ | _, None => S754_zero false
  | ds, Some e => to_float neg (get_digits ds 0) (e - Z.of_nat (length f))
  end.
(** str_to, 295-301 *)
Definition str_to_float (s : text) : outcome spec_float :=
  match skip_ws s with [] => Ub | t => Ret (get_float t) end.
End Format.
