(** Numerals: digits 0-9 a-f read in a base, most significant first. *)
From Coq Require Import ZArith NArith List Bool Ascii.
Import ListNotations.
Open Scope Z_scope.

Definition digit_of (c : ascii) : option Z :=
  let n := Z.of_N (N_of_ascii c) in
  if (48 <=? n) && (n <=? 57) then Some (n - 48)
  else if (97 <=? n) && (n <=? 102) then Some (n - 97 + 10)
  else None.

Definition read_digit (base : Z) (acc : option Z) (c : ascii) : option Z :=
  match acc, digit_of c with
  | Some a, Some d => if d <? base then Some (a * base + d) else None
  | _, _ => None
  end.
Definition read (base : Z) (ds : list ascii) : option Z := fold_left (read_digit base) ds (Some 0).

(** [ds] is the numeral of [v] in base [base] without leading zeros *)
Definition numeral (base v : Z) (ds : list ascii) : Prop :=
  ds <> [] /\ read base ds = Some v /\ (forall ds', ds = "0"%char :: ds' -> ds' = []).
