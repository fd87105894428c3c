(** Model of bin, oct and hex, /repo/include/pluto/string.hpp 1722-1818.

    A value of an [n]-byte integer type (signed or not) is an integer; [value >> k] after integral
    promotion is an arithmetic shift (implementation-defined for negative values before C++20, done
    so by every supported compiler), undefined when k is not below the width; we use the width
    before promotion, which is the stricter bound.  [&] with a small positive literal is the
    two's complement "and".  reserve() has no observable effect and is left out. *)
From Coq Require Import ZArith List Bool Ascii String.
From Verif Require Import Base.
Import ListNotations.
Open Scope Z_scope.
Open Scope outcome_scope.

Definition bits (n : nat) : Z := Z.of_nat n * 8.   (** sizeof(Value) * 8 *)

Definition shr (n : nat) (v k : Z) : outcome Z :=
  if (0 <=? k) && (k <? bits n) then Ret (Z.shiftr v k) else Ub.

Definition text (s : string) : list ascii := list_ascii_of_string s.

(** [characters[digit]] *)
Definition char_at (chars : string) (d : Z) : outcome ascii :=
  if d <? 0 then Ub
  else match nth_error (text chars) (Z.to_nat d) with Some c => Ret c | None => Ub end.

(** bin, 1722-1748; the loop 1728-1740, [i] counts down *)
Fixpoint bin_loop (n : nat) (v : Z) (i : nat) (result : list ascii) : outcome (list ascii) :=
  match i with
  | O => Ret result
  | S i =>
      let* shifted := shr n v (Z.of_nat i) in
      let digit := Z.land shifted 1 in
      match result with
      | _ :: _ => bin_loop n v i (result ++ [if digit =? 0 then "0"%char else "1"%char])
      | [] => if negb (digit =? 0) then bin_loop n v i (text "0b1") else bin_loop n v i result
      end
  end.

Definition bin (n : nat) (v : Z) : outcome (list ascii) :=
  let* result := bin_loop n v (n * 8) [] in
  Ret (match result with [] => text "0b0" | _ => result end).

(** oct, 1750-1788; the loop 1768-1780 *)
Definition remainder (n : nat) : Z := bits n mod 3.
Definition oct_max (n : nat) : Z :=
  (bits n + (if remainder n =? 0 then 0 else 3 - remainder n)) / 3.
Definition last_bits (r : Z) : Z := if r =? 0 then 7 else if r =? 1 then 1 else 3.

Fixpoint oct_loop (n : nat) (v : Z) (i : nat) (position : Z) (result : list ascii)
  : outcome (list ascii) :=
  match i with
  | O => Ret result
  | S i' =>
      let position := position - 3 in
      let* shifted := shr n v position in
      let digit := Z.land shifted (if Z.of_nat i =? oct_max n then last_bits (remainder n) else 7) in
      match result with
      | _ :: _ =>
          let* c := char_at "01234567" digit in oct_loop n v i' position (result ++ [c])
      | [] =>
          if negb (digit =? 0)
          then let* c := char_at "01234567" digit in oct_loop n v i' position (text "0o" ++ [c])
          else oct_loop n v i' position result
      end
  end.

Definition oct (n : nat) (v : Z) : outcome (list ascii) :=
  let* result := oct_loop n v (Z.to_nat (oct_max n)) (oct_max n * 3) [] in
  Ret (match result with [] => text "0o0" | _ => result end).

(** hex, 1790-1818; the loop 1798-1810 *)
Fixpoint hex_loop (n : nat) (v : Z) (i : nat) (position : Z) (result : list ascii)
  : outcome (list ascii) :=
  match i with
  | O => Ret result
  | S i' =>
      let position := position - 4 in
      let* shifted := shr n v position in
      let digit := Z.land shifted 15 in
      match result with
      | _ :: _ =>
          let* c := char_at "0123456789abcdef" digit in hex_loop n v i' position (result ++ [c])
      | [] =>
          if negb (digit =? 0)
          then let* c := char_at "0123456789abcdef" digit in
               hex_loop n v i' position (text "0x" ++ [c])
          else hex_loop n v i' position result
      end
  end.

Definition hex (n : nat) (v : Z) : outcome (list ascii) :=
  let* result := hex_loop n v (n * 2) (Z.of_nat (n * 2) * 4) [] in
  Ret (match result with [] => text "0x0" | _ => result end).
