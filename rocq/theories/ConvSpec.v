(** Specification of the conversions to and from text.  [numeral] and [read] are those of DigitsSpec.v. *)
From Coq Require Import Ascii String List Bool Arith ZArith.
From Verif Require Import Base DigitsSpec.
Import ListNotations.
Open Scope list_scope.

Definition blank (c : ascii) : Prop := In c [" "; "009"; "010"; "011"; "012"; "013"]%char.
Definition decimal_digit (c : ascii) : Prop := In c ["0"; "1"; "2"; "3"; "4"; "5"; "6"; "7"; "8"; "9"]%char.
(** integers of a signed or unsigned type of [w] bits *)
Definition representable (signed : bool) (w v : Z) : Prop :=
  if signed then (- 2 ^ (w - 1) <= v < 2 ^ (w - 1))%Z else (0 <= v < 2 ^ w)%Z.
(** [r] is the value of the type nearest to [v] *)
Definition nearest (signed : bool) (w v r : Z) : Prop :=
  representable signed w r /\ forall r', representable signed w r' -> (Z.abs (v - r) <= Z.abs (v - r'))%Z.
(** [s] is the decimal numeral of [v]: a minus sign only for negative numbers, no leading zeros *)
Definition decimal (v : Z) (s : list ascii) : Prop :=
  exists ds, numeral 10 (Z.abs v) ds /\ s = if (v <? 0)%Z then "-"%char :: ds else ds.
(** [s] begins with the number [v]: white space, an optional sign, at least one digit, then no further digit *)
Definition begins_with_number (v : Z) (s : list ascii) : Prop :=
  exists ws sign ds rest m, s = ws ++ sign ++ ds ++ rest /\ Forall blank ws /\ ds <> [] /\ Forall decimal_digit ds /\
  read 10 ds = Some m /\ match rest with c :: _ => ~ decimal_digit c | [] => True end /\
  ((sign = [] \/ sign = ["+"%char]) /\ v = m \/ sign = ["-"%char] /\ v = (- m)%Z).
