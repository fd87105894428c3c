(** What texts of floating-point numbers mean in a locale, with the groups of GroupSpec.v and the numbers of
    FloatTextSpec.v. *)
From Coq Require Import Ascii String List Bool ZArith.
From Verif Require Import Base DigitsSpec ConvSpec GroupSpec FloatTextSpec.
Import ListNotations.
Local Open Scope list_scope.

(** a character that is no part of a number otherwise *)
Definition free (c : ascii) : Prop := ~ decimal_digit c /\ c <> "-"%char /\ c <> "+"%char /\ c <> "e"%char /\ c <> "E"%char.
(** a locale of groups [g] with the separator [sep], and the point [pt], is not confusing *)
Definition proper (g : list Z) (sep pt : ascii) : Prop :=
  free pt /\ ~ blank pt /\ (size g 0 <> None -> free sep /\ sep <> pt).
(** the text [t] of a number in the classic locale is written [t'] in another: digits before the point are in groups, the
    point is [pt] *)
Definition localised (g : list Z) (sep pt : ascii) (t t' : list ascii) : Prop :=
  exists sg i f ex i', t = sg ++ i ++ fraction f ++ ex /\ (sg = [] \/ sg = ["-"%char]) /\ i <> [] /\ Forall decimal_digit (i ++ f) /\
  (exists x, exponent_text x ex) /\ grouped g sep i i' /\
  t' = sg ++ i' ++ match f with [] => [] | _ => pt :: f end ++ ex.
(** [t] is a number of the value m * 10^e without a sign, with digits in groups of any sizes *)
Definition local_number (g : list Z) (sep pt : ascii) (m e : Z) (t : list ascii) : Prop :=
  exists groups p f ex x, t = separated sep groups ++ p ++ f ++ ex /\ concat groups ++ f <> [] /\ Forall decimal_digit (concat groups ++ f) /\
  read 10 (concat groups ++ f) = Some m /\ (p = [] /\ f = [] \/ p = [pt]) /\ exponent_text x ex /\ e = (x - Z.of_nat (List.length f))%Z /\
  Forall (fun x => x <> []) groups /\ (size g 0 = None -> (List.length groups <= 1)%nat).
(** nothing after the number [t] can be taken for a part of it; after a point or an exponent no point and no separator can,
    after an exponent no second one *)
Definition ends_local (g : list Z) (sep pt : ascii) (t rest : list ascii) : Prop :=
  match rest with
  | c :: _ => ~ decimal_digit c /\ (c = "e"%char \/ c = "E"%char -> In "e"%char t \/ In "E"%char t) /\
      (c = pt \/ size g 0 <> None /\ c = sep -> In pt t \/ In "e"%char t \/ In "E"%char t)
  | [] => True
  end.
