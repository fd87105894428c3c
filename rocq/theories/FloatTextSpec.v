(** What decimal texts of floating-point numbers mean, stated with rational numbers. *)
From Coq Require Import Ascii String List Bool ZArith QArith Qabs Floats.SpecFloat.
From Verif Require Import Base DigitsSpec ConvSpec FloatSpec.
Import ListNotations.
Local Open Scope list_scope.

(** a sign, minus or not, in front of a number *)
Definition sign_text (s : bool) (sg : list ascii) : Prop := if s then sg = ["-"%char] else sg = [] \/ sg = ["+"%char].
(** the form of the text of six digits d * 10^(k-5): an exponent if k is less than -4 or more than 5, no zeros at the end of
    the fraction, no superfluous zeros in front *)
Definition fraction (f : list ascii) : list ascii := match f with [] => [] | _ => "."%char :: f end.
Definition form (k : Z) (t : list ascii) : Prop :=
  exists i f ex, t = i ++ fraction f ++ ex /\ i <> [] /\ (forall i', i = "0"%char :: i' -> i' = []) /\ (forall f', f <> f' ++ ["0"%char]) /\
  (-4 <= k < 6 /\ ex = [] \/
   ~ (-4 <= k < 6) /\ List.length i = 1%nat /\ i <> ["0"%char] /\
   exists n, ex = "e"%char :: (if k <? 0 then "-"%char else "+"%char) :: n /\ read 10 n = Some (Z.abs k) /\ (2 <= List.length n)%nat /\
     ((2 < List.length n)%nat -> forall n', n <> "0"%char :: n')).
Local Open Scope Q_scope.

(** m * 10^e *)
Definition decimal_value (m e : Z) : Q := inject_Z m * (10 # 1) ^ e.
(** [t] is a decimal number of the value m * 10^e without a sign: digits, at least one, with or without a point among
    them, and an exponent or none *)
Definition exponent_text (e : Z) (t : list ascii) : Prop :=
  t = [] /\ e = 0%Z \/
  exists c sg ds n, t = c :: sg ++ ds /\ (c = "e" \/ c = "E")%char /\ ds <> [] /\ Forall decimal_digit ds /\ read 10 ds = Some n /\
  ((sg = [] \/ sg = ["+"%char]) /\ e = n \/ sg = ["-"%char] /\ e = (- n)%Z).
Definition number_text (m e : Z) (t : list ascii) : Prop :=
  exists i point f ex x, t = i ++ point ++ f ++ ex /\ i ++ f <> [] /\ Forall decimal_digit (i ++ f) /\ read 10 (i ++ f) = Some m /\
  (point = [] /\ f = [] \/ point = ["."%char]) /\ exponent_text x ex /\ e = (x - Z.of_nat (List.length f))%Z.
(** nothing after the number can be taken for a part of it *)
Definition ends_number (rest : list ascii) : Prop :=
  match rest with c :: _ => ~ decimal_digit c /\ c <> "."%char /\ c <> "e"%char /\ c <> "E"%char | [] => True end.
(** of the numbers of [digits] decimal digits m * 10^e is the nearest to [v], the even one if there are two *)
Definition nearest_decimal (digits : Z) (v : Q) (m e : Z) : Prop :=
  (0 <= m < 10 ^ digits)%Z /\
  (forall m' e', (0 <= m' < 10 ^ digits)%Z -> Qabs (decimal_value m e - v) <= Qabs (decimal_value m' e' - v)) /\
  (forall m' e', (0 <= m' < 10 ^ digits)%Z -> ~ decimal_value m' e' == decimal_value m e ->
     Qabs (decimal_value m e - v) == Qabs (decimal_value m' e' - v) -> Z.even m = true).

Section Format.
Variables prec emax : Z.
(** the value of a finite number *)
Definition value (x : spec_float) : Q := inject_Z (units prec emax x) / inject_Z (one prec emax).
(** [x] is the number nearest to [v], and the even one of two nearest ones *)
Definition nearest_number (v : Q) (x : spec_float) : Prop :=
  number prec emax x /\ is_finite x = true /\
  (forall y, number prec emax y -> is_finite y = true -> Qabs (value x - v) <= Qabs (value y - v)) /\
  (forall y, number prec emax y -> is_finite y = true -> ~ value y == value x -> Qabs (value x - v) == Qabs (value y - v) ->
     exists m k, units prec emax x = (2 * m * 2 ^ k)%Z /\ (0 <= k)%Z /\ (2 * Z.abs m <= 2 ^ prec)%Z /\ Z.abs (units prec emax y - units prec emax x) = (2 ^ k)%Z).
(** values that are rounded to an infinity *)
Definition overflows (v : Q) : Prop := inject_Z (2 ^ (emax - emin prec emax) - 2 ^ (emax - emin prec emax - prec - 1)) / inject_Z (one prec emax) <= Qabs v.
(** numbers with a full mantissa *)
Definition normal (x : spec_float) : Prop := (2 ^ (prec - 1) <= Z.abs (units prec emax x))%Z.
End Format.
